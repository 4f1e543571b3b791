(** How programs with if statements run, and what it means to follow a suggestion, said without the functions of the model. *)
From Coq Require Import String List Bool Arith ZArith.
From Verif Require Import Base DupModel.
Import ListNotations.
Local Open Scope string_scope.
Local Open Scope list_scope.
Local Open Scope nat_scope.

(** What expressions and statements do that are not looked into: a condition changes the state and is true, false, or raises ([None]); a
    statement changes the state and lets the next statement run or not ([return], [break], an exception, an endless loop). *)
Record python (State : Type) := mk_python {
  basic_truth : nat -> State -> State * option bool;
  other_run : nat -> State -> State * bool }.
Arguments basic_truth {State} _ _ _.
Arguments other_run {State} _ _ _.

Section Runs.
  Context {State : Type}.
  Variable P : python State.

  Fixpoint truth (c : cond) (st : State) : State * option bool :=
    match c with
    | Basic id => basic_truth P id st
    | And a b => match truth a st with (st', Some true) => truth b st' | r => r end
    | Or a b => match truth a st with (st', Some false) => truth b st' | r => r end
    | Not a => match truth a st with (st', Some b) => (st', Some (negb b)) | r => r end
    end.

  Section Blocks.
    Variable run_one : stmt -> State -> State * bool.
    Fixpoint run_list (l : list stmt) (st : State) : State * bool :=
      match l with
      | [] => (st, true)
      | s :: l => match run_one s st with (st', true) => run_list l st' | r => r end
      end.
  End Blocks.
  Fixpoint run (s : stmt) (st : State) : State * bool :=
    match s with
    | Other id => other_run P id st
    | If t b o => match truth t st with
                  | (st', Some true) => run_list run b st'
                  | (st', Some false) => run_list run o st'
                  | (st', None) => (st', false)
                  end
    end.
  Definition run_block : list stmt -> State -> State * bool := run_list run.

  (** Two blocks do the same. *)
  Definition same_run (a b : list stmt) : Prop := forall st, run_block a st = run_block b st.

  (** Statements with the same text do the same. *)
  Definition text_decides (src : source) : Prop := forall a b, as_string src a = as_string src b -> forall st, run a st = run b st.

  (** A condition that changes nothing and raises nothing, and that the statements [l] do not change. *)
  Definition undisturbed (l : list stmt) (c : cond) : Prop :=
    forall st, exists b, truth c st = (st, Some b) /\ forall st', run_block l st = (st', true) -> truth c st' = (st', Some b).
End Runs.

(** [if t1: b1 elif t2: b2 ... else: e] *)
Fixpoint as_ifs (arms : list (cond * list stmt)) (e : list stmt) : list stmt :=
  match arms with [] => e | (t, b) :: arms => [If t b (as_ifs arms e)] end.

(** The branches of such a statement: an empty [else] branch is no branch. *)
Definition branches_of (arms : list (cond * list stmt)) (e : list stmt) : list (list stmt) := map snd arms ++ match e with [] => [] | _ => [e] end.

(** The last [n] elements, and the others. *)
Definition last_part {A} (n : nat) (l : list A) : list A := skipn (length l - n) l.
Definition without_last {A} (n : nat) (l : list A) : list A := firstn (length l - n) l.

(** The lines that the statements [l] take. *)
Definition lines_of (src : source) (l : list stmt) (n : Z) : Prop :=
  exists first_ last_ r r', l = first_ :: r /\ l = r' ++ [last_] /\ n = (tolineno src last_ - fromlineno src first_ + 1)%Z.

(** All branches have statements with the same texts at the place [i], counted from the beginning or from the end. *)
Definition agree (src : source) (forward : bool) (branches : list (list stmt)) (i : nat) : Prop :=
  exists text, Forall (fun b => exists s, nth_error (if forward then b else rev b) i = Some s /\ as_string src s = text) branches.

(** Bodies of [if] statements are not empty. *)
Fixpoint proper (s : stmt) : Prop :=
  match s with
  | Other _ => True
  | If _ b o => b <> [] /\ (fix all l := match l with [] => True | x :: l => proper x /\ all l end) b /\
                (fix all l := match l with [] => True | x :: l => proper x /\ all l end) o
  end.

(** The lines of a branch are in order. *)
Definition in_order (src : source) (l : list stmt) : Prop :=
  forall i j a b, i <= j -> nth_error l i = Some a -> nth_error l j = Some b -> (fromlineno src a <= fromlineno src b)%Z.

(** [t1 or t2 or ...] *)
Fixpoint any_of (t : cond) (ts : list cond) : cond := match ts with [] => t | u :: ts => Or t (any_of u ts) end.

(** The texts of two blocks are the same. *)
Definition same_code (src : source) (a b : list stmt) : Prop := map (as_string src) a = map (as_string src) b.

(** A block that is one [if], and an [if] without [else]. *)
Definition single_if (l : list stmt) : bool := match l with [If _ _ _] => true | _ => false end.
Definition plain (a : cond * list stmt) : stmt := If (fst a) (snd a) [].

(** ** Values *)

(** What names, constants and other expressions are worth; [None] is an exception. *)
Section Values.
  Context {State Value : Type}.
  Variable P : python State.
  Variable node_value : nat -> State -> State * option Value.
  Variable name_value : string -> State -> State * option Value.
  Variable const_value : string -> State -> State * option Value.

  Fixpoint value (e : expr) (st : State) : State * option Value :=
    match e with
    | ENode id => node_value id st
    | EName s => name_value s st
    | EConst s => const_value s st
    | EIfExp t a b => match truth P t st with
                      | (st', Some true) => value a st'
                      | (st', Some false) => value b st'
                      | (st', None) => (st', None)
                      end
    end.

  (** The value in the branch that runs: [subs] are the values in the branches of [if t1: ... elif t2: ... else: ...]. *)
  Fixpoint selected (worth : sub -> State -> State * option Value) (tests : list cond) (subs : list sub) (st : State) : State * option Value :=
    match tests, subs with
    | t :: tests, s :: subs => match truth P t st with
                               | (st', Some true) => worth s st'
                               | (st', Some false) => selected worth tests subs st'
                               | (st', None) => (st', None)
                               end
    | [], s :: _ => worth s st
    | _, [] => (st, None)
    end.

  (** What stands in the code: a node, the name of a [Name] node, or the value of a [Const] node; other attributes of nodes have no value. *)
  Definition worth_of (parent : string) (s : sub) (st : State) : State * option Value :=
    match s with
    | SubNode id => node_value id st
    | SubPlain x => if String.eqb parent "Name" then name_value x st else if String.eqb parent "Const" then const_value x st else (st, None)
    | SubList _ => (st, None)
    end.
End Values.

(** Values that expressions can be made of. *)
Definition has_value (parent : string) (s : sub) : Prop := parent = "Name" \/ parent = "Const" \/ exists id, s = SubNode id.

(** ** Lists and dictionaries *)

(** Whether a condition holds, if [equal n c] says whether the variable [n] is equal to the constant [c]. *)
Section Equal.
  Variable equal : string -> const -> bool.
  Variable other_test : test -> bool.

  Fixpoint holds_test (t : test) : bool :=
    match t with
    | TCompare (ONameOf n) [("==", OConst c)] | TCompare (OConst c) [("==", ONameOf n)] => equal n c
    | TBool "and" values => forallb holds_test values
    | TBool "or" values => existsb holds_test values
    | t => other_test t
    end.

  (** The first branch whose condition holds. *)
  Fixpoint first_branch (i : nat) (tests : list test) : option nat :=
    match tests with [] => None | t :: tests => if holds_test t then Some i else first_branch (S i) tests end.

  (** Looking up the values of the variables in a dictionary: of equal keys the last one counts. *)
  Definition key_matches (vars : list string) (key : list const) : bool :=
    (length vars =? length key) && forallb (fun '(n, c) => equal n c) (combine vars key).
  Definition looked_up (vars : list string) (entries : list (list const * nat)) : option nat :=
    match find (fun '(key, _) => key_matches vars key) (rev entries) with Some (_, i) => Some i | None => None end.
End Equal.
