(** The fragment of Python's [re] used by edulint: a pattern is a sequence of literals, single
    characters of a class and greedy repetitions of a class, some of them captured.  [re.match] is a
    backtracking search that tries longer repetitions first and need not reach the end of the text.
    Characters are bytes. *)
From Coq Require Import String Ascii List Bool Arith.
From Verif Require Import Base.
Import ListNotations.
Local Open Scope string_scope.
Local Open Scope list_scope.

(** Building blocks of a pattern, edulint/linting/tweakers.py:118-155. *)
Inductive item :=
| Lit (s : string)                   (* literal text *)
| CapLit (s : string)                (* literal text in a group *)
| One (cls : ascii -> bool)          (* one character of a class *)
| Star (cls : ascii -> bool)         (* greedy repetition *)
| CapStar (cls : ascii -> bool).     (* greedy repetition in a group *)

(** Character classes: [.] (no newline), [\s] (ASCII white space), [[^x]], edulint/linting/tweakers.py:118-155. *)
Definition newline : ascii := "010".
(** The class [.], edulint/linting/tweakers.py:118-155. *)
Definition any_char (c : ascii) : bool := negb (Ascii.eqb c newline).
(** The class [\s], edulint/linting/tweakers.py:118-155. *)
Definition is_space (c : ascii) : bool :=
  let n := nat_of_ascii c in ((9 <=? n) && (n <=? 13) || (28 <=? n) && (n <=? 32))%nat.
(** The class [[^x]], edulint/linting/tweakers.py:118-155. *)
Definition not_char (x c : ascii) : bool := negb (Ascii.eqb c x).

(** Equality of characters, with [re.IGNORECASE] if [ci], edulint/linting/tweakers.py:118-155. *)
Definition char_eqb (ci : bool) (a b : ascii) : bool :=
  if ci then Ascii.eqb (lower_ascii a) (lower_ascii b) else Ascii.eqb a b.

(** A literal at the start of a text: the text it matched and the rest, edulint/linting/tweakers.py:118-155. *)
Fixpoint strip_lit (ci : bool) (l s : string) : option (string * string) :=
  match l, s with
  | EmptyString, _ => Some (EmptyString, s)
  | String a l', String b s' =>
      if char_eqb ci a b
      then match strip_lit ci l' s' with Some (m, r) => Some (String b m, r) | None => None end
      else None
  | String _ _, EmptyString => None
  end.

(** A greedy repetition followed by [k], edulint/linting/tweakers.py:118-155. *)
Fixpoint star {A} (cls : ascii -> bool) (k : string -> option A) (s : string) : option (string * A) :=
  match s with
  | EmptyString => match k s with Some a => Some (EmptyString, a) | None => None end
  | String c r =>
      match (if cls c then star cls k r else None) with
      | Some (g, a) => Some (String c g, a)
      | None => match k s with Some a => Some (EmptyString, a) | None => None end
      end
  end.

(** [re.match(pattern, text)]: the groups and the text after the match, edulint/linting/tweakers.py:118-155. *)
Fixpoint rmatch (ci : bool) (p : list item) (s : string) : option (list string * string) :=
  match p with
  | [] => Some ([], s)
  | Lit l :: r =>
      match strip_lit ci l s with Some (_, s') => rmatch ci r s' | None => None end
  | CapLit l :: r =>
      match strip_lit ci l s with
      | Some (m, s') => match rmatch ci r s' with Some (g, e) => Some (m :: g, e) | None => None end
      | None => None
      end
  | One cls :: r =>
      match s with String c s' => if cls c then rmatch ci r s' else None | EmptyString => None end
  | Star cls :: r =>
      match star cls (rmatch ci r) s with Some (_, x) => Some x | None => None end
  | CapStar cls :: r =>
      match star cls (rmatch ci r) s with Some (m, (g, e)) => Some (m :: g, e) | None => None end
  end.
