(** What switching messages on and off should do, independently of how the checkers are called. *)
From Coq Require Import String List Bool Arith.
From Verif Require Import Base SwitchModel.
Import ListNotations.
Local Open Scope string_scope.
Local Open Scope list_scope.
Local Open Scope nat_scope.

(** What the checks of a method find consists of messages they may report. *)
Definition fits (m : method) (found : list (list message)) : Prop :=
  Forall2 (fun c f => forall x, In x f -> In (fst x) (emits c)) (checks m) found.

(** The messages that are switched on. *)
Definition wanted (on : string -> bool) (ms : list message) : list message := filter (fun x => on (fst x)) ms.

(** ** Duplication *)

(** A statement and those after it up to one that ends the sequence, without those skipped. *)
Inductive follows (skipped ends : nat -> bool) : list nat -> list nat -> Prop :=
| follows_nil : follows skipped ends [] []
| follows_end : forall s l, ends s = true -> follows skipped ends (s :: l) []
| follows_skip : forall s l r, ends s = false -> skipped s = true -> follows skipped ends l r -> follows skipped ends (s :: l) r
| follows_keep : forall s l r, ends s = false -> skipped s = false -> follows skipped ends l r -> follows skipped ends (s :: l) (s :: r).

(** The rest of the block of a statement starts with it, and that of the statement before has one more. *)
Definition block_like (block_from : nat -> list nat) (previous : nat -> option nat) : Prop :=
  (forall s, exists l, block_from s = s :: l) /\ (forall s p, previous s = Some p -> block_from p = p :: block_from s).

(** Code is nested: what is in a statement, or in a statement and those after it, is in it together with what follows in its own block;
    and what follows something in the body of an if after its first statement is not in the first statement. *)
Record nested (siblings : nat -> list nat) (nodes_of : list nat -> list nat) (first_body : nat -> list nat) : Prop := {
  within_statement : forall s x, x <> s -> In x (nodes_of [s]) -> incl (nodes_of (siblings x)) (nodes_of [s]);
  within_siblings : forall s x, In x (nodes_of (siblings s)) -> incl (nodes_of (siblings x)) (nodes_of (siblings s));
  among_siblings : forall s, incl (nodes_of [s]) (nodes_of (siblings s));
  after_first : forall s x y, x <> s -> In x (nodes_of [s]) -> ~ In x (first_body s) -> In y (nodes_of (siblings x)) -> ~ In y (first_body s) }.

(** The messages that each attempt may report; the one for common statements of branches also says that all of them are common. *)
Definition reports : list (list string) :=
  [["identical-if-branches-part"; "identical-if-branches"]; ["identical-seq-ifs"; "identical-seq-elifs"]; ["identical-if-branches"];
   ["similar-if-to-untwisted"]; ["similar-if-to-use"]; ["similar-if-into-block"]; ["similar-if-to-list"; "similar-if-to-dict"];
   ["similar-if-to-expr"]; ["similar-if-to-extracted"]].
(** What the attempts find consists of messages they may report, and an attempt that succeeds has a message. *)
Definition attempts_fit (found : list (bool * list message)) : Prop :=
  Forall2 (fun r f => (forall x, In x (snd f) -> In (fst x) r) /\ (fst f = true -> snd f <> [])) reports found.
(** The messages about loops. *)
Definition about_loops : list string := ["similar-block-to-loop-range"; "similar-block-to-loop-collection"; "similar-block-to-loop-merge"].
(** An attempt finds a message that is switched on. *)
Definition finds (on : string -> bool) (found : list (bool * list message)) : Prop :=
  exists f x, In f found /\ fst f = true /\ In x (snd f) /\ on (fst x) = true.
(** The switches that let nothing be found silently: all about identical code and loops is on, and the two about containers are on or off
    together. *)
Definition not_silent (on : string -> bool) : Prop :=
  (forall x, In x (["identical-if-branches-part"; "identical-if-branches"; "identical-seq-ifs"; "identical-seq-elifs"] ++ about_loops) -> on x = true) /\
  on "similar-if-to-list" = on "similar-if-to-dict".
