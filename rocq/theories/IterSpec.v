(** What suggestions to write repeated code as a loop promise, in terms of Python's [range], of the values that vary and of runs of the code. *)
From Coq Require Import String Ascii List Bool Arith NArith ZArith.
From Verif Require Import Base PyModel PySpec IfModel FoldModel FoldSpec TypeModel LocalModel LocalSpec IterModel.
Import ListNotations.
Local Open Scope string_scope.
Local Open Scope list_scope.
Local Open Scope nat_scope.

(** ** Iterables *)

(** n numbers from [a] on, [d] apart. *)
Definition arith (a d : Z) (n : nat) : list Z := map (fun k => (a + Z.of_nat k * d)%Z) (seq 0 n).
(** [l] is what Python's range(a, b, s) gives: all its elements, in order. *)
Definition is_range (a b s : Z) (l : list Z) : Prop := s <> 0%Z /\ l = arith a s (length l) /\ forall x, List.In x l <-> member a b s x.
(** What an iterable gives, element by element, in a state of a program. *)
Definition iterates {W} (P : python W) (w : W) (it : iterable) (vs : list value) : Prop :=
  match it with
  | RangeCall (Call (Name x) args) => x = "range" /\ exists a b s l, range_arguments P w args a b s /\ is_range a b s l /\ vs = map VInt l
  | RangeCall _ => False
  | ListDisplay elts => Forall2 (gives P w) elts vs
  end.
(** The loop has [n] iterations, whatever the state: the arguments of range are constants. *)
Definition iterations (it : iterable) (n : nat) : Prop :=
  match it with
  | RangeCall (Call (Name x) args) => x = "range" /\ exists a b s l, (forall W (P : python W) w, range_arguments P w args a b s) /\ is_range a b s l /\ length l = n
  | RangeCall _ => False
  | ListDisplay elts => length elts = n
  end.

(** ** Values that vary *)

(** A value, or an expression that the linter can compute. *)
Definition stands_for (H : host) (s : sub) (v : value) : Prop :=
  match s with Raw u => u = v | Node e => get_const_value H e = Ok v end /\ v <> VNone.
(** The values at a place, one for each repetition. *)
Definition values (H : host) (a : avar) (vs : list value) : Prop := Forall2 (stands_for H) (subs a) vs.
(** The integers at a place. *)
Definition numbers (H : host) (a : avar) (zs : list Z) : Prop := exists vs, values H a vs /\ map as_int vs = map Some zs.
(** Characters at a place, by their codes. *)
Definition letter (z : Z) : value := VStr (String (ascii_of_nat (Z.to_nat z)) EmptyString).
Definition letters (H : host) (a : avar) (zs : list Z) : Prop := parent a = InConst /\ values H a (map letter zs) /\ Forall (fun z => (0 <= z < 256)%Z) zs.
(** Equal as Python sees it: a bool is equal to an integer. *)
Definition equal_values (v w : value) : Prop := v = w \/ exists z, as_int v = Some z /\ as_int w = Some z.
(** Not the same value everywhere. *)
Definition varies (H : host) (a : avar) : Prop := forall vs, values H a vs -> ~ (forall v w, List.In v vs -> List.In w vs -> equal_values v w).
(** All values at the place are constants. *)
Definition constant_place (H : host) (a : avar) : Prop := exists vs, values H a vs.
(** The values at a place do not include nodes of one type only: those are compared part by part. *)
Definition node_kind (s : sub) : option kind := match s with Raw _ => None | Node _ => Some (kind_of s) end.
Definition proper (a : avar) : Prop := (forall s, List.In s (subs a) -> exists v, s = Raw v) \/ exists s t, List.In s (subs a) /\ List.In t (subs a) /\ kind_of s <> kind_of t /\ node_kind s <> None /\ node_kind t <> None.
(** Sums and products only. *)
Fixpoint sums_products (e : expr) : bool :=
  match e with Binary o a b => (match o with Add | Mul => true | _ => false end) && sums_products a && sums_products b | _ => true end.

(** Values that are not objects of unknown kind. *)
Definition plain_values (vs : list value) : Prop := Forall (fun v => forall n, v <> VObj n) vs.
(** Computing the expressions at a place raises nothing but the exceptions that the linter catches. *)
Definition computes (H : host) (a : avar) : Prop := forall e, List.In (Node e) (subs a) -> exists v, get_const_value H e = Ok v.
(** A place with [n] values that are not all the same. *)
Definition place_ok (H : host) (n : nat) (a : avar) : Prop := length (subs a) = n /\ proper a /\ computes H a /\ varies H a.
(** The loop around: what the linter computes of its range can be computed, and a constant bound is an integer. *)
Definition loop_ok (H : host) (l : around) : Prop :=
  forall start stop step, get_range_params (loop_iter l) = Some (start, stop, step) ->
    (exists v, get_const_value H start = Ok v) /\ (exists v, get_const_value H stop = Ok v) /\ (exists v, get_const_value H step = Ok v) /\
    (forall c, stop = Const c -> exists z, as_int (const_value c) = Some z).

(** ** Repetitions *)

(** Equal parts of the beginning of a block: at least two of them, none empty. *)
Definition repetition {A} (block : list A) (stop : nat) (parts : list (list A)) : Prop :=
  2 <= length parts /\ concat parts = firstn stop block /\ stop = length (concat parts) /\ exists len, 1 <= len /\ Forall (fun p => length p = len) parts.
(** Longer beginnings come first; among equally long ones smaller parts do. *)
Definition before {A} (r q : nat * list (list A)) : Prop := fst q < fst r \/ fst q = fst r /\ length (snd q) < length (snd r).

(** ** Runs *)

(** What the code with one varying expression does: [body] gets its value. Exceptions end the run. *)
Section Runs.
  Context {W : Type}.
  Variable P : python W.
  Variable body : value -> W -> W * res unit.
  Fixpoint one_by_one (es : list expr) (w : W) : W * res unit :=
    match es with
    | [] => (w, Ok tt)
    | e :: es =>
        match eval P e w with
        | (w, Ok v) => match body v w with (w, Ok _) => one_by_one es w | r => r end
        | (w, Raise x) => (w, Raise x)
        end
    end.
  (** The list is evaluated first. *)
  Fixpoint evaluate (es : list expr) (w : W) : W * res (list value) :=
    match es with
    | [] => (w, Ok [])
    | e :: es =>
        match eval P e w with
        | (w, Ok v) => match evaluate es w with (w, Ok vs) => (w, Ok (v :: vs)) | (w, Raise x) => (w, Raise x) end
        | (w, Raise x) => (w, Raise x)
        end
    end.
  Fixpoint for_each (vs : list value) (w : W) : W * res unit :=
    match vs with
    | [] => (w, Ok tt)
    | v :: vs => match body v w with (w, Ok _) => for_each vs w | r => r end
    end.
  Definition loop_over (es : list expr) (w : W) : W * res unit :=
    match evaluate es w with (w, Ok vs) => for_each vs w | (w, Raise x) => (w, Raise x) end.
End Runs.

(** How a block ends. *)
Inductive ending := Done | Break | Continue | Leave (r : res nat).
Section Loops.
  Context {W : Type}.
  Notation block := (W -> W * ending).
  (** Copies of a block, one after the other. *)
  Fixpoint copies (k : nat) (b : block) (w : W) : W * ending :=
    match k with
    | 0 => (w, Done)
    | S k => match b w with (w, Done) => copies k b w | r => r end
    end.
  (** [for target in range(n): b], where [assign] assigns the target; the answer tells how the loop ends. *)
  Fixpoint for_range (assign : nat -> W -> W) (b : block) (i n : nat) (w : W) : W * ending :=
    match n with
    | 0 => (w, Done)
    | S n =>
        match b (assign i w) with
        | (w, Done) | (w, Continue) => for_range assign b (S i) n w
        | (w, Break) => (w, Break)
        | (w, Leave r) => (w, Leave r)
        end
    end.
End Loops.

(** Two runs end the same way in states that are the same but for the target of the loop. *)
Definition alike {W} (same_but_target : W -> W -> Prop) (r q : W * ending) : Prop := same_but_target (fst r) (fst q) /\ snd r = snd q.
(** The code does not depend on the target and does not change it in a way that matters: from states that are the same but for the target it gets
    to such states. *)
Definition ignores {W} (same_but_target : W -> W -> Prop) (b : W -> W * ending) : Prop := forall w w', same_but_target w w' -> alike same_but_target (b w) (b w').
