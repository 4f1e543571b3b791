(** What following the messages that merge comparisons promises. *)
From Coq Require Import String List Bool Arith NArith ZArith.
From Verif Require Import Base PyModel PySpec IfModel IfSpec FoldModel FoldSpec LocalModel LocalSpec.
Import ListNotations.
Local Open Scope string_scope.
Local Open Scope list_scope.

(** The two expressions are both true or both false in state [w], without effects. *)
Definition agree {W} (P : python W) (w : W) (a b : expr) : Prop := exists r, gives P w a (VBool r) /\ gives P w b (VBool r).
(** The quoted text is the and/or of some operands [gs] of [vs], and the suggested text has the same truth value. *)
Definition replaces {W} (P : python W) (w : W) (o : boolop) (vs : list expr) (quote suggestion : text) : Prop :=
  exists gs es s, incl gs vs /\ 2 <= length gs /\ reads quote (BoolOp o es) /\ Forall2 (agree P w) es gs /\
    reads suggestion s /\ agree P w s (BoolOp o gs).

(** The largest and the smallest of some numbers. *)
Definition greatest (m : Z) (zs : list Z) : Prop := List.In m zs /\ forall z, List.In z zs -> (z <= m)%Z.
Definition least (m : Z) (zs : list Z) : Prop := List.In m zs /\ forall z, List.In z zs -> (m <= z)%Z.
(** In state [w], the name is a function that gives such a number for two or more integers. *)
Definition has_function {W} (P : python W) (w : W) (f : string) (best : Z -> list Z -> Prop) : Prop :=
  exists r, lookup P f w = Ok r /\ forall vs zs, map as_int vs = map Some zs -> 2 <= length zs ->
    exists v m, call P r vs w = (w, Ok v) /\ as_int v = Some m /\ best m zs.
(** "max" and "min" are Python's. *)
Definition has_max_min {W} (P : python W) (w : W) : Prop := has_function P w "max" greatest /\ has_function P w "min" least.

(** The expression gives an integer. *)
Definition an_int {W} (P : python W) (w : W) (e : expr) : Prop := exists z, is_int P w e z.
(** If the text of an expression starts with "max(" or "min(", it is a call with two or more arguments, which are integers. *)
Definition whole_call {W} (P : python W) (w : W) (e : expr) : Prop := forall f rest,
  f = "max" \/ f = "min" -> as_string e = TName f :: TLP :: rest ->
  exists args, e = Call (Name f) args /\ 2 <= length args /\ Forall (an_int P w) args.
(** An operand of a comparison: an integer that needs no parentheses. *)
Definition int_operand {W} (P : python W) (w : W) (e : expr) : Prop := tight e = true /\ an_int P w e /\ whole_call P w e.
(** The comparisons by order among the operands compare integers. *)
Definition int_comparisons {W} (P : python W) (w : W) (vs : list expr) : Prop :=
  forall a c b, List.In (Compare a [(c, b)]) vs -> c = Lt \/ c = Le \/ c = Gt \/ c = Ge -> int_operand P w a /\ int_operand P w b.

(** The dividends of the remainders on either side of a comparison. *)
Definition dividend (e : expr) : list expr := match e with Binary Mod x _ => [x] | _ => [] end.
Definition dividends (e : expr) : list expr :=
  match e with
  | BoolOp And vs => flat_map (fun v => match v with Compare a [(_, b)] => dividend a ++ dividend b | _ => [] end) vs
  | _ => []
  end.

(** Parentheses and brackets match. *)
Inductive balanced : text -> Prop :=
| balanced_nil : balanced []
| balanced_token t : t <> TLP -> t <> TRP -> t <> TLB -> t <> TRB -> balanced [t]
| balanced_paren t : balanced t -> balanced (TLP :: t ++ [TRP])
| balanced_bracket t : balanced t -> balanced (TLB :: t ++ [TRB])
| balanced_app a b : balanced a -> balanced b -> balanced (a ++ b).
(** If the text of an expression starts with "max(" or "min(", the expression is one call. *)
Definition one_call (e : expr) : Prop := forall f rest, f = "max" \/ f = "min" -> as_string e = TName f :: TLP :: rest -> exists args, e = Call (Name f) args.
