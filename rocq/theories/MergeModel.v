(** Model of the checks of and/or that merge comparisons with max/min (R6213) and comparisons of remainders (R6215),
    edulint/linting/checkers/simplifiable_if.py. Definitions only.
    Simplified: texts are lists of tokens (see PyModel). *)
From Coq Require Import String Ascii List Bool Arith NArith ZArith.
From Verif Require Import Base PyModel PySpec IfModel FoldModel LocalModel.
Import ListNotations.
Local Open Scope string_scope.
Local Open Scope list_scope.

(** [SWITCHED_COMPARATOR], edulint/linting/checkers/simplifiable_if.py:1406-1411. *)
Definition switched (c : cmpop) : option cmpop :=
  match c with Ge => Some Le | Gt => Some Lt | Le => Some Ge | Lt => Some Gt | _ => None end.
(** [SWITCHED_COMPARATOR[comp]] with a KeyError, edulint/linting/checkers/simplifiable_if.py:1449, 1737, 1807. *)
Definition switch (c : cmpop) : res cmpop := match switched c with Some d => Ok d | None => Raise KeyError end.
(** [_get_node_comparator_const_value], edulint/linting/checkers/simplifiable_if.py:1424-1451. *)
Definition comparator_const_value (H : host) (e : expr) : res (option (expr * cmpop * value)) :=
  match e with
  | Compare a [(c, b)] =>
      do l <- is_number H a;
      do r <- is_number H b;
      match switched c with
      | None => Ok None
      | Some d =>
          if (l && r) || (negb l && negb r) then Ok None
          else if l then do v <- get_const_value H a; Ok (Some (b, d, v))
          else do v <- get_const_value H b; Ok (Some (a, c, v))
      end
  | _ => Ok None
  end.
(** [str(operand[2])], edulint/linting/checkers/simplifiable_if.py:2240. *)
Definition value_text (v : value) : text :=
  match v with VInt z => int_text z | VFloat r => [TConst (CFloat r)] | _ => [] end.
(** [_is_comparison_not_between_numbers], edulint/linting/checkers/simplifiable_if.py:2033-2040. *)
Definition between_others (H : host) (e : expr) : res (option (expr * cmpop * expr)) :=
  match e with
  | Compare a [(c, b)] =>
      match switched c with
      | None => Ok None
      | Some _ =>
          do l <- is_number H a;
          if l then Ok None else do r <- is_number H b; Ok (if r then None else Some (a, c, b))
      end
  | _ => Ok None
  end.

(** ** Dictionaries of comparisons *)
(** The values of the inner dictionaries of [SameDirComparisons]: the other operands and whether the comparison was turned
    around, edulint/linting/checkers/simplifiable_if.py:1716-1731. *)
Definition others := (list text * list bool)%type.
(** [SameDirComparisons], in order of insertion, edulint/linting/checkers/simplifiable_if.py:1716-1731. *)
Definition comparisons := list (text * list (cmpop * others)).
(** The inner dictionary in [_update_comparisons], edulint/linting/checkers/simplifiable_if.py:1725-1729. *)
Fixpoint update_inner (g : list (cmpop * others)) (c : cmpop) (e2 : text) (sw : bool) : list (cmpop * others) :=
  match g with
  | [] => [(c, ([e2], [sw]))]
  | (c', (ts, bs)) :: g => if cmpop_eqb c' c then (c', (ts ++ [e2], bs ++ [sw])) :: g else (c', (ts, bs)) :: update_inner g c e2 sw
  end.
(** [_update_comparisons], edulint/linting/checkers/simplifiable_if.py:1716-1731. *)
Fixpoint update_comparisons (d : comparisons) (e1 : text) (c : cmpop) (e2 : text) (sw : bool) : comparisons :=
  match d with
  | [] => [(e1, [(c, ([e2], [sw]))])]
  | (k, g) :: d => if text_eqb k e1 then (k, update_inner g c e2 sw) :: d else (k, g) :: update_comparisons d e1 c e2 sw
  end.

(** ** Comparisons with max and min *)
(** [_switch_if_necessary], edulint/linting/checkers/simplifiable_if.py:1733-1739. *)
Definition switch_if_necessary (e1 : text) (c : cmpop) (e2 : text) (was_switched : bool) : res text :=
  if was_switched then do d <- switch c; Ok (e2 ++ cmp_tokens d ++ e1) else Ok (e1 ++ cmp_tokens c ++ e2).
(** [range(len(group))] with [was_switched[i]], edulint/linting/checkers/simplifiable_if.py:1752-1756. *)
Fixpoint switch_all (e1 : text) (c : cmpop) (group : list text) (was_switched : list bool) : res (list text) :=
  match group, was_switched with
  | [], _ => Ok []
  | t :: group, s :: was_switched =>
      do x <- switch_if_necessary e1 c t s;
      do r <- switch_all e1 c group was_switched;
      Ok (x :: r)
  | _, [] => Raise IndexError
  end.
(** [_get_original_group_as_string], edulint/linting/checkers/simplifiable_if.py:1741-1769. *)
Definition original_group (e1 : text) (c : cmpop) (group : list text) (was_switched : list bool) (number : option (text * bool)) (o : boolop) : res text :=
  do l <- switch_all e1 c group was_switched;
  match number with
  | None => Ok (sep_by [bool_token o] l)
  | Some (t, s) => do x <- switch_if_necessary e1 c t s; Ok (sep_by [bool_token o] (l ++ [x]))
  end.
(** Whether the text starts with "max(" or "min(", edulint/linting/checkers/simplifiable_if.py:1787. *)
Definition starts_with (function : string) (t : text) : bool :=
  match t with TName x :: TLP :: _ => String.eqb x function | _ => false end.
(** [s[:-1]], edulint/linting/checkers/simplifiable_if.py:1788. *)
Definition chop (s : string) : string := substring 0 (String.length s - 1) s.
(** The last token without its last character; what is left of a string or a display is not a token, which is modelled by
    a token that no expression starts with. edulint/linting/checkers/simplifiable_if.py:1788. *)
Definition chop_token (t : token) : text :=
  match t with
  | TName x => if Nat.leb (String.length x) 1 then [] else [TName (chop x)]
  | TConst (CInt n) => if N.ltb n 10 then [] else [TConst (CInt (n / 10))]
  | TConst (CFloat r) => [TConst (CFloat (chop r))]
  | TConst CNone => [TName "Non"]
  | TConst (CBool true) => [TName "Tru"]
  | TConst (CBool false) => [TName "Fals"]
  | TConst (CStr _) | TOther _ => [TNegClose]
  | _ => []
  end.
(** [expressions[i][4:-1]] of a text that starts with "max(" or "min(", edulint/linting/checkers/simplifiable_if.py:1788. *)
Definition stripped (t : text) : text :=
  match t with
  | _ :: _ :: r => match rev r with [] => [] | l :: r => rev r ++ chop_token l end
  | _ => []
  end.
(** [comparison[0] == ">"], edulint/linting/checkers/simplifiable_if.py:1805, 1868. *)
Definition is_greater (c : cmpop) : bool := match c with Gt | Ge => true | _ => false end.
(** [comparison[0] == "<"], edulint/linting/checkers/simplifiable_if.py:1869. *)
Definition is_less (c : cmpop) : bool := match c with Lt | Le => true | _ => false end.
(** [_put_into_max_or_min], edulint/linting/checkers/simplifiable_if.py:1771-1809. *)
Definition put_into (function : string) (e1 : text) (c : cmpop) (group : list text) (number : option (text * bool)) (was_switched : list bool) : res text :=
  let args := map (fun t => if starts_with function t then stripped t else t) group ++ match number with Some (t, _) => [t] | None => [] end in
  match was_switched with
  | [] => Raise IndexError
  | first :: _ =>
      let same := forallb (Bool.eqb first) was_switched && match number with Some (_, s) => Bool.eqb s first | None => true end in
      let result := [TName function; TLP] ++ sep_by [TComma] args ++ [TRP] in
      if (same && first) || (negb same && is_greater c)
      then do d <- switch c; Ok (result ++ cmp_tokens d ++ e1)
      else Ok (e1 ++ cmp_tokens c ++ result)
  end.
(** [comparisons_with_numbers[expr][cmp]] if there is exactly one comparison with a number and it has the given direction,
    edulint/linting/checkers/simplifiable_if.py:1846-1851, 1860-1863. *)
Definition single_number (numbers : comparisons) (e1 : text) (c : cmpop) : option (text * bool) :=
  match find (fun p => text_eqb (fst p) e1) numbers with
  | Some (_, [(c', ([t], [s]))]) => if cmpop_eqb c' c then Some (t, s) else None
  | _ => None
  end.
(** A group to be merged: the expression, the comparison, the others, the number.
    edulint/linting/checkers/simplifiable_if.py:1827-1831. *)
Record chosen := { ch_expr : text; ch_cmp : cmpop; ch_others : list text; ch_switched : list bool; ch_number : option (text * bool) }.
(** The body of the loops, edulint/linting/checkers/simplifiable_if.py:1835-1866. *)
Definition choose_one (numbers : comparisons) (best : option chosen) (e1 : text) (c : cmpop) (x : others) : option chosen :=
  if Nat.ltb (length (fst x)) 2 then best
  else
    let number := single_number numbers e1 c in
    let count := length (fst x) + match number with Some _ => 1 | None => 0 end in
    let new := Some {| ch_expr := e1; ch_cmp := c; ch_others := fst x; ch_switched := snd x; ch_number := number |} in
    match best with
    | None => new
    | Some b => if Nat.ltb (length (ch_others b)) count then new else best
    end.
(** The loops, edulint/linting/checkers/simplifiable_if.py:1833-1866. *)
Definition choose (numbers d : comparisons) : option chosen :=
  fold_left (fun best p => fold_left (fun best q => choose_one numbers best (fst p) (fst q) (snd q)) (snd p) best) d None.
(** [_make_suggestion_for_using_max_min_if_possible]: the arguments of the message.
    edulint/linting/checkers/simplifiable_if.py:1812-1889. *)
Definition max_min (numbers d : comparisons) (o : boolop) : res (option (text * text)) :=
  match choose numbers d with
  | None => Ok None
  | Some ch =>
      do g <- original_group (ch_expr ch) (ch_cmp ch) (ch_others ch) (ch_switched ch) (ch_number ch) o;
      let function := if (match o with And => is_greater (ch_cmp ch) | Or => is_less (ch_cmp ch) end) then "max" else "min" in
      do s <- put_into function (ch_expr ch) (ch_cmp ch) (ch_others ch) (ch_number ch) (ch_switched ch);
      Ok (Some (g, s))
  end.

(** ** Comparisons of remainders *)
(** [Comparisons], edulint/linting/checkers/simplifiable_if.py:68-71. *)
Inductive kind := Equality | Inequality | OtherKind.
(** [PairsOfModComparisonsWithNum]; sets are lists without repetitions. edulint/linting/checkers/simplifiable_if.py:81-109. *)
Record pair := {
  pr_first : text; pr_second : text; pr_modulo : Z;
  pr_equality : list Z; pr_inequality : list (list Z); pr_true : list (list Z);
  pr_texts : list (text * kind)
}.
(** [set.add], edulint/linting/checkers/simplifiable_if.py:138. *)
Definition add (z : Z) (s : list Z) : list Z := if existsb (Z.eqb z) s then s else s ++ [z].
(** [set.update], edulint/linting/checkers/simplifiable_if.py:120. *)
Definition add_all (zs s : list Z) : list Z := fold_left (fun s z => add z s) zs s.
(** The numbers below the modulus, edulint/linting/checkers/simplifiable_if.py:127. *)
Definition below (n : Z) : list Z := map Z.of_nat (seq 0 (Z.to_nat n)).
(** [get_possible_values_mod], edulint/linting/checkers/simplifiable_if.py:122-127. *)
Definition possible (n : Z) (c : cmpop) (v : Z) : list Z :=
  match c with Eq => [v] | _ => filter (fun i => negb (Z.eqb i v)) (below n) end.
(** [comparisons[v1].update(...)], edulint/linting/checkers/simplifiable_if.py:120. *)
Fixpoint update_at (l : list (list Z)) (i : nat) (zs : list Z) : list (list Z) :=
  match l, i with
  | [], _ => []
  | s :: l, 0 => add_all zs s :: l
  | s :: l, S i => s :: update_at l i zs
  end.
(** [update_comparisons], edulint/linting/checkers/simplifiable_if.py:111-120. *)
Definition update_sets (n : Z) (l : list (list Z)) (c1 : cmpop) (v1 : Z) (c2 : cmpop) (v2 : Z) : list (list Z) :=
  fold_left (fun l i => update_at l (Z.to_nat i) (possible n c2 v2)) (possible n c1 v1) l.
(** The kind of a pair of comparisons, edulint/linting/checkers/simplifiable_if.py:137-146. *)
Definition kind_of (c1 : cmpop) (v1 : Z) (c2 : cmpop) (v2 : Z) : kind :=
  if cmpop_eqb c1 Eq && cmpop_eqb c2 Eq && Z.eqb v1 v2 then Equality
  else if (cmpop_eqb c1 Eq && cmpop_eqb c2 Eq) || ((negb (cmpop_eqb c1 Ne) || negb (cmpop_eqb c2 Ne)) && Z.eqb v1 v2) then Inequality
  else OtherKind.
(** [update], edulint/linting/checkers/simplifiable_if.py:129-148. *)
Definition update_pair (p : pair) (c1 : cmpop) (v1 : Z) (c2 : cmpop) (v2 : Z) (t : text) : pair :=
  let n := pr_modulo p in
  let k := kind_of c1 v1 c2 v2 in
  {| pr_first := pr_first p; pr_second := pr_second p; pr_modulo := n;
     pr_equality := match k with Equality => add v1 (pr_equality p) | _ => pr_equality p end;
     pr_inequality := match k with Inequality => update_sets n (pr_inequality p) c1 v1 c2 v2 | _ => pr_inequality p end;
     pr_true := update_sets n (pr_true p) c1 v1 c2 v2;
     pr_texts := pr_texts p ++ [(t, k)] |}.
(** [PairsOfModComparisonsWithNum.__init__], edulint/linting/checkers/simplifiable_if.py:82-109. *)
Definition new_pair (e1 : text) (c1 : cmpop) (v1 : Z) (e2 : text) (c2 : cmpop) (v2 : Z) (n : Z) (t : text) : pair :=
  let empty := map (fun _ => []) (below n) in
  update_pair {| pr_first := e1; pr_second := e2; pr_modulo := n; pr_equality := []; pr_inequality := empty; pr_true := empty; pr_texts := [] |}
    c1 v1 c2 v2 t.
(** [always_true], edulint/linting/checkers/simplifiable_if.py:150-155. *)
Definition always_true (p : pair) : bool := forallb (fun s => Z.eqb (Z.of_nat (length s)) (pr_modulo p)) (pr_true p).
(** [has_part_simplifiable_to_equality], edulint/linting/checkers/simplifiable_if.py:157-158. *)
Definition has_equality (p : pair) : bool := Z.eqb (Z.of_nat (length (pr_equality p))) (pr_modulo p).
(** [has_part_simplifiable_to_inequality], edulint/linting/checkers/simplifiable_if.py:160-165. *)
Definition has_inequality (p : pair) : bool := forallb (fun s => Z.eqb (Z.of_nat (length s)) (pr_modulo p - 1)) (pr_inequality p).

(** [_is_equality_or_inequality], edulint/linting/checkers/simplifiable_if.py:1891-1896. *)
Definition equality_parts (e : expr) : option (expr * cmpop * expr) :=
  match e with Compare a [(Eq, b)] => Some (a, Eq, b) | Compare a [(Ne, b)] => Some (a, Ne, b) | _ => None end.
(** [_is_conjunction_of_two_equalities], edulint/linting/checkers/simplifiable_if.py:1898-1905. *)
Definition two_equalities (e : expr) : option ((expr * cmpop * expr) * (expr * cmpop * expr)) :=
  match e with
  | BoolOp And [a; b] => match equality_parts a, equality_parts b with Some x, Some y => Some (x, y) | _, _ => None end
  | _ => None
  end.
(** [_add_parentheses_to_operations], edulint/linting/checkers/simplifiable_if.py:1907-1911. *)
Definition parenthesized (e : expr) : text :=
  match e with Binary _ _ _ | BoolOp _ _ | Unary _ _ | Compare _ _ => paren (as_string e) | _ => as_string e end.
(** [_destructure_mod_and_number_comparison], edulint/linting/checkers/simplifiable_if.py:1913-1940. *)
Definition remainder_comparison (H : host) (x : expr * cmpop * expr) : res (option (text * Z * cmpop * Z)) :=
  let '(a, c, b) := x in
  do l <- is_number H a;
  do r <- is_number H b;
  if (l && r) || (negb l && negb r) then Ok None
  else
    let '(a, b) := if l then (b, a) else (a, b) in
    match a with
    | Binary Mod y m =>
        do q <- is_number H m;
        if negb q then Ok None
        else
          do n <- get_const_value H m;
          do v <- get_const_value H b;
          match n, v with
          | VInt n, VInt v =>
              if Z.ltb n 2 || negb (Z.leb 0 v && Z.ltb v n) then Ok None
              else if Z.eqb n 2 && cmpop_eqb c Ne then Ok (Some (parenthesized y, n, Eq, (1 - v)%Z))
              else Ok (Some (parenthesized y, n, c, v))
          | _, _ => Ok None
          end
    | _ => Ok None
    end.
(** What [_destructure_mod_and_number_comps] gives, edulint/linting/checkers/simplifiable_if.py:1942-1965. *)
Record remainders := { rm_first : text; rm_cmp1 : cmpop; rm_val1 : Z; rm_second : text; rm_cmp2 : cmpop; rm_val2 : Z; rm_modulo : Z }.
(** [_destructure_mod_and_number_comps], edulint/linting/checkers/simplifiable_if.py:1942-1965. *)
Definition remainder_comparisons (H : host) (x y : expr * cmpop * expr) : res (option remainders) :=
  do l <- remainder_comparison H x;
  do r <- remainder_comparison H y;
  match l, r with
  | Some (e1, n1, c1, v1), Some (e2, n2, c2, v2) =>
      if Z.eqb n1 n2
      then Ok (Some {| rm_first := e1; rm_cmp1 := c1; rm_val1 := v1; rm_second := e2; rm_cmp2 := c2; rm_val2 := v2; rm_modulo := n1 |})
      else Ok None
  | _, _ => Ok None
  end.
(** [_insert_conjuncted_mod_comparison], edulint/linting/checkers/simplifiable_if.py:1967-1995. *)
Fixpoint insert (l : list pair) (m : remainders) (t : text) : list pair :=
  match l with
  | [] => [new_pair (rm_first m) (rm_cmp1 m) (rm_val1 m) (rm_second m) (rm_cmp2 m) (rm_val2 m) (rm_modulo m) t]
  | p :: l =>
      if negb (Z.eqb (pr_modulo p) (rm_modulo m)) then p :: insert l m t
      else if text_eqb (pr_first p) (rm_first m) && text_eqb (pr_second p) (rm_second m)
      then update_pair p (rm_cmp1 m) (rm_val1 m) (rm_cmp2 m) (rm_val2 m) t :: l
      else if text_eqb (pr_first p) (rm_second m) && text_eqb (pr_second p) (rm_first m)
      then update_pair p (rm_cmp2 m) (rm_val2 m) (rm_cmp1 m) (rm_val1 m) t :: l
      else p :: insert l m t
  end.
(** [for_comparison == Comparisons...], edulint/linting/checkers/simplifiable_if.py:2012, 2021. *)
Definition kind_eqb (a b : kind) : bool :=
  match a, b with Equality, Equality | Inequality, Inequality | OtherKind, OtherKind => true | _, _ => false end.
(** The texts of a kind joined by or, edulint/linting/checkers/simplifiable_if.py:2007-2014, 2017-2023. *)
Definition joined (p : pair) (k : kind) : text := sep_by [TOr] (map fst (filter (fun x => kind_eqb (snd x) k) (pr_texts p))).
(** [f"{...} % {...} == {...} % {...}"], edulint/linting/checkers/simplifiable_if.py:2015, 2024. *)
Definition compared (p : pair) (c : cmpop) : text :=
  pr_first p ++ [TBin Mod] ++ int_text (pr_modulo p) ++ [TRel c] ++ pr_second p ++ [TBin Mod] ++ int_text (pr_modulo p).
(** The body of [_make_suggestion_for_simplifiable_test_by_equals], edulint/linting/checkers/simplifiable_if.py:1997-2031. *)
Definition by_equals (p : pair) : option (text * text) :=
  if always_true p then Some (sep_by [TOr] (map fst (pr_texts p)), [TConst (CBool true)])
  else if has_equality p then Some (joined p Equality, compared p Eq)
  else if has_inequality p then Some (joined p Inequality, compared p Ne)
  else None.

(** ** The check *)
(** What is collected about the operands, edulint/linting/checkers/simplifiable_if.py:2224-2229. *)
Record collected := { co_numbers : comparisons; co_others : comparisons; co_pairs : list pair }.
(** One operand, edulint/linting/checkers/simplifiable_if.py:2231-2267. *)
Definition collect_one (H : host) (o : boolop) (s : collected) (e : expr) : res collected :=
  do x <- comparator_const_value H e;
  match x, e with
  | Some (a, c, v), Compare _ [(c', _)] =>
      Ok {| co_numbers := update_comparisons (co_numbers s) (as_string a) c (value_text v) (negb (cmpop_eqb c' c));
            co_others := co_others s; co_pairs := co_pairs s |}
  | Some _, _ => Raise AttributeError
  | None, _ =>
      do y <- between_others H e;
      match y with
      | Some (a, c, b) =>
          do d <- switch c;
          let first := update_comparisons (co_others s) (as_string a) c (as_string b) false in
          Ok {| co_numbers := co_numbers s;
                co_others := update_comparisons first (as_string b) d (as_string a) true; co_pairs := co_pairs s |}
      | None =>
          match o, two_equalities e with
          | Or, Some (x, y) =>
              do m <- remainder_comparisons H x y;
              Ok (match m with
                  | Some m => {| co_numbers := co_numbers s; co_others := co_others s; co_pairs := insert (co_pairs s) m (as_string e) |}
                  | None => s
                  end)
          | _, _ => Ok s
          end
      end
  end.
(** The loop over the operands; [None] if an operand is not pure. edulint/linting/checkers/simplifiable_if.py:2231-2267. *)
Fixpoint collect (I : purity) (H : host) (o : boolop) (s : collected) (vs : list expr) : res (option collected) :=
  match vs with
  | [] => Ok (Some s)
  | e :: vs => if is_pure_expression I e then do s <- collect_one H o s e; collect I H o s vs else Ok None
  end.
(** [_check_for_simplification_of_boolop]: the messages R6215 and R6213, in this order. The other messages are modelled in
    LocalModel and SolverModel. edulint/linting/checkers/simplifiable_if.py:2220-2274. *)
Definition merge_checks (I : purity) (H : host) (o : boolop) (vs : list expr) : res (list (text * text) * option (text * text)) :=
  do s <- collect I H o {| co_numbers := []; co_others := []; co_pairs := [] |} vs;
  match s with
  | None => Ok ([], None)
  | Some s =>
      do m <- max_min (co_numbers s) (co_others s) o;
      Ok (flat_map (fun p => match by_equals p with Some x => [x] | None => [] end) (co_pairs s), m)
  end.
