(** The properties of the messages about single expressions and statements. *)
From Coq Require Import String Ascii List Bool Arith NArith ZArith Lia.
From Verif Require Import Base PyModel PySpec PyProofs IfModel IfSpec IfProofs FoldModel FoldSpec FoldProofs FoldExamples TypeModel LocalModel LocalSpec TextProofs LocalProofs LetterProofs RangeProofs SmallProofs LocalExamples.
Import ListNotations.
Local Open Scope string_scope.
Local Open Scope list_scope.

(** C44: the suggested comparisons are true exactly for the members of the range, for an integer operand without effects,
    bounds that are integers and no conditions. *)
Theorem C44_members_partial : forall W (P : python W) w H, closed_host H -> agrees P H -> forall left x, is_var left = true -> fine left = true -> gives P w left (VInt x) ->
  forall I only_ints op args k t a b s, op = In \/ op = NotIn ->
    in_range H I only_ints left [(op, Call (Name "range") args)] = Ok (Some (k, t)) -> has_range P w -> range_arguments P w args a b s ->
    Forall (fun e => fine e = true /\ tight e = true /\ int_sum P w e) args ->
    exists e r, reads t e /\ gives P w e (VBool r) /\ gives P w (Compare left [(op, Call (Name "range") args)]) (VBool r) /\
      (r = true <-> if match op with In => true | _ => false end then member a b s x else ~ member a b s x).
Proof. intros W P w H CH AG left x LV LF LX. exact (in_range_ok P w H CH AG left x LV LF LX). Qed.
(** x not in range(y + 1, 20, 3), which becomes x < y + 1 or 20 <= x or x % 3 != (y + 1) % 3 *)
Example ex_members :
  let env := [("x", VInt 8); ("y", VInt 4)] in let start := Binary Add (var "y") (num 1) in
  in_range basic all_pure (fun _ => true) (var "x") [(NotIn, Call (Name "range") [start; num 20; num 3])] =
    Ok (Some (Stepped, [TName "x"; TRel Lt; TName "y"; TBin Add; TConst (CInt 1); TOr; TConst (CInt 20); TRel Le; TName "x"; TOr;
      TName "x"; TBin Mod; TConst (CInt 3); TRel Ne; TLP; TName "y"; TBin Add; TConst (CInt 1); TRP; TBin Mod; TConst (CInt 3)])) /\
  has_range (sample env) tt /\ range_arguments (sample env) tt [start; num 20; num 3] 5 20 3 /\
  Forall (fun e => fine e = true /\ tight e = true /\ int_sum (sample env) tt e) [start; num 20; num 3] /\ member 5 20 3 8.
Proof.
  cbv zeta. refine (conj eq_refl (conj _ (conj _ (conj _ _)))).
  - apply sample_range. reflexivity.
  - split; [exists (VInt 5); split; reflexivity|]. split; [exists (VInt 20)|exists (VInt 3)]; split; reflexivity.
  - constructor; [|constructor; [|constructor; [|constructor]]]; (split; [reflexivity|]); (split; [reflexivity|]); try exact Logic.I.
    exists 4%Z, 1%Z. split; [exists (VInt 4)|exists (VInt 1)]; split; reflexivity.
  - exists 1%Z. lia.
Qed.
(** x in range(y - 1, y + 1), which becomes x == y - 1 or x == y *)
Example ex_members_small :
  in_range basic all_pure (fun _ => true) (var "x") [(In, Call (Name "range") [Binary Sub (var "y") (num 1); Binary Add (var "y") (num 1)])] =
    Ok (Some (Small, [TName "x"; TRel Eq; TName "y"; TBin Sub; TConst (CInt 1); TOr; TName "x"; TRel Eq; TName "y"])).
Proof. reflexivity. Qed.
Theorem C44_unbracketed_refuted : exists H I only_ints args t e env, closed_host H /\ agrees (sample env) H /\ has_range (sample env) tt /\
  in_range H I only_ints (var "x") (in_range_call args) = Ok (Some (Plain, t)) /\ reads t e /\
  test (sample env) (Compare (var "x") (in_range_call args)) tt = (tt, Ok false) /\ test (sample env) e tt = (tt, Ok true).
Proof. exact unbracketed_refuted. Qed.
Theorem C44_float_refuted : exists H A args t e env, closed_host H /\ agrees (sample env) H /\ has_range (sample env) tt /\
  in_range H A guessed_int (Call (Name "abs") [Const (CFloat "1.5")]) (in_range_call args) = Ok (Some (Plain, t)) /\ reads t e /\
  test (sample env) (Compare (Call (Name "abs") [Const (CFloat "1.5")]) (in_range_call args)) tt = (tt, Ok false) /\ test (sample env) e tt = (tt, Ok true).
Proof. exact float_refuted. Qed.

(** C45: a call as operand is evaluated twice after the change. *)
Theorem C45_twice_refuted : exists H I left args t e, closed_host H /\ agrees reader H /\ (forall w, has_range reader w) /\
  in_range H I guessed_int left (in_range_call args) = Ok (Some (Plain, t)) /\ reads t e /\
  test reader (Compare left (in_range_call args)) 4 = (5, Ok true) /\ test reader e 4 = (6, Ok false).
Proof. exact twice_refuted. Qed.
Theorem C45_pure_partial : forall W (P : python W) w H, closed_host H -> agrees P H -> forall left x, is_var left = true -> fine left = true -> gives P w left (VInt x) ->
  forall I only_ints op args k t a b s, op = In \/ op = NotIn ->
    in_range H I only_ints left [(op, Call (Name "range") args)] = Ok (Some (k, t)) -> has_range P w -> range_arguments P w args a b s ->
    Forall (fun e => fine e = true /\ tight e = true /\ int_sum P w e) args ->
    exists e, reads t e /\ eval P e w = eval P (Compare left [(op, Call (Name "range") args)]) w.
Proof.
  intros W P w H CH AG left x LV LF LX I oi op args k t a b s O E HR R F.
  destruct (in_range_ok P w H CH AG left x LV LF LX I oi op args k t a b s O E HR R F) as (e & r & RD & G & G' & _). exists e. split; [exact RD|]. unfold gives in *. congruence.
Qed.

(** C46 *)
Theorem C46_reported : forall H, closed_host H -> forall args k, iteration_count H (Call (Name "range") args) = Ok (Some k) -> forall W (P : python W), agrees P H -> forall w,
  exists a b s, range_arguments P w args a b s /\ (s <> 0)%Z /\
    match k with
    | NoIterations => forall x, ~ member a b s x
    | OneIteration => exists x, forall y, member a b s y <-> y = x
    end.
Proof. exact reported_count. Qed.
Theorem C46_exact : forall H, closed_host H -> forall args, Forall (known H) args -> forall W (P : python W) w a b s, agrees P H -> range_arguments P w args a b s -> s <> 0%Z ->
  exists r, iteration_count H (Call (Name "range") args) = Ok r /\
    (r = Some NoIterations <-> forall x, ~ member a b s x) /\
    (r = Some OneIteration <-> exists x, forall y, member a b s y <-> y = x).
Proof. exact count_exact. Qed.
(** range(7, 2 - 4, -9) has one element, range(5, 5) none, range(1, 8, 3) three. *)
Example ex_count : let two := Binary Sub (num 2) (num 4) in
  iteration_count basic (Call (Name "range") [num 7; two; Unary Neg (num 9)]) = Ok (Some OneIteration) /\
  iteration_count basic (Call (Name "range") [num 5; num 5]) = Ok (Some NoIterations) /\
  iteration_count basic (Call (Name "range") [num 1; num 8; num 3]) = Ok None /\
  Forall (known basic) [num 7; two; Unary Neg (num 9)] /\ range_arguments (sample []) tt [num 7; two; Unary Neg (num 9)] 7 (-2) (-9).
Proof.
  cbv zeta. refine (conj eq_refl (conj eq_refl (conj eq_refl (conj _ _)))).
  - repeat constructor; eexists; (split; [reflexivity|discriminate]).
  - split; [exists (VInt 7); split; reflexivity|]. split; [exists (VInt (-2)); split; reflexivity|exists (VInt (-9)); split; reflexivity].
Qed.

(** C47: only the first two operands are sure to be the same; all are if the first operand is not itself an operation of the chain. *)
Theorem C47_first_partial : forall e, repeated_operation e = Ok true -> exists o x y rest, (o = Add \/ o = Mul) /\ operands o e = x :: y :: rest /\ as_string x = as_string y.
Proof. exact repeated_first. Qed.
Theorem C47_right_partial : forall o a b, repeated_operation (Binary o a b) = Ok true -> operands o a = [a] -> Forall (fun x => as_string x = as_string a) (operands o (Binary o a b)).
Proof. exact repeated_right. Qed.
(** The check ends without an exception although it contains an assertion. *)
Theorem C47_ends : forall e, exists r, repeated_operation e = Ok r.
Proof. exact repeated_ends. Qed.
Example ex_repeated : let x := Attribute (var "a") "b" in
  repeated_operation (Binary Mul x (Binary Mul x x)) = Ok true /\ operands Mul x = [x] /\ repeated_operation (Binary Mul x (Binary Mul x (num 2))) = Ok false.
Proof. split; [reflexivity|]. split; reflexivity. Qed.
Theorem C47_refuted : exists e x y z, repeated_operation e = Ok true /\ operands Add e = [x; y; z] /\ as_string x <> as_string z.
Proof. exact repeated_refuted. Qed.

(** C48: the value is kept except when the text subtracts a sum without brackets, or the letter needs an escape. *)
Theorem C48_value_partial : forall W (P : python W) w H o a b msgs s z t, closed_host H -> agrees P H -> has_ord P w -> use_ord_letter H o a b = Ok msgs -> List.In (s, z, t) msgs ->
  fine a = true -> fine b = true -> plain_letter z -> ~ (o = Sub /\ s = RightSide /\ before_bound z) ->
  (exists i, is_int P w (match s with LeftSide => b | RightSide => a end) i) ->
  exists e, reads (replaced o a b s t) e /\ eval P e w = eval P (Binary o a b) w.
Proof. exact @ord_message. Qed.
(** ord(c) - 98, where 98 becomes (ord('a') + 1) *)
Example ex_ord : let env := [("c", VStr "x")] in
  use_ord_letter basic Sub ord_c (num 98) = Ok [(RightSide, 98%Z, paren (ord_letter 97 ++ [TBin Add; TConst (CInt 1)]))] /\
  plain_letter 98 /\ ~ (Sub = Sub /\ RightSide = RightSide /\ before_bound 98) /\ is_int (sample env) tt ord_c 120 /\ has_ord (sample env) tt.
Proof.
  cbv zeta. refine (conj eq_refl (conj _ (conj _ (conj _ _)))).
  - split; discriminate.
  - intros (_ & _ & B). cbn in B. intuition discriminate.
  - exists (VInt 120). split; reflexivity.
  - apply sample_ord. reflexivity.
Qed.
Theorem C48_minus_refuted : exists H o a b s z t e env v v', closed_host H /\ agrees (sample env) H /\ has_ord (sample env) tt /\
  use_ord_letter H o a b = Ok [(s, z, t)] /\ plain_letter z /\ reads (replaced o a b s t) e /\
  gives (sample env) tt (Binary o a b) v /\ gives (sample env) tt e v' /\ v <> v'.
Proof. exact minus_refuted. Qed.
Theorem C48_quote_refuted : exists H o a b s z t, closed_host H /\ use_ord_letter H o a b = Ok [(s, z, t)] /\ forall e, ~ reads (replaced o a b s t) e.
Proof. exact quote_refuted. Qed.

(** C49: with ord(x) next to the constant, the letter comparison has the same value. *)
Theorem C49_first_partial : forall W (P : python W) w H, closed_host H -> agrees P H -> has_ord P w -> forall left op x rest msgs z t,
  ord_compare H left ((op, Call (Name "ord") [x]) :: rest) = Ok msgs -> List.In (LeftSide, z, t) msgs ->
  ordering op = true -> plain_letter z -> fine x = true -> tight x = true -> one_letter P w x ->
  exists e, reads (t ++ as_string x) e /\ eval P e w = eval P (Compare left [(op, Call (Name "ord") [x])]) w.
Proof. intros W P w H CH AG HO. exact (first_same P w H CH AG HO). Qed.
Theorem C49_last_partial : forall W (P : python W) w H, closed_host H -> agrees P H -> has_ord P w -> forall left pre op param x msgs z t,
  ord_compare H left (pre ++ [(op, param)]) = Ok msgs -> List.In (RightSide, z, t) msgs -> last (map snd pre) left = Call (Name "ord") [x] ->
  ordering op = true -> plain_letter z -> fine x = true -> tight x = true -> one_letter P w x ->
  exists e, reads (as_string x ++ t) e /\ eval P e w = eval P (Compare (Call (Name "ord") [x]) [(op, param)]) w.
Proof. intros W P w H CH AG HO. exact (last_same P w H CH AG HO). Qed.
(** 96 < ord(c) <= 122, which becomes 'a' <= c and c <= 'z' *)
Example ex_letters : ord_compare basic (num 96) [(Lt, ord_c); (Le, num 122)] =
  Ok [(LeftSide, 96%Z, [TConst (CStr "a"); TRel Le]); (RightSide, 122%Z, [TRel Le; TConst (CStr "z")])] /\ one_letter (sample [("c", VStr "k")]) tt (var "c").
Proof. split; [reflexivity|]. exists "k"%char. reflexivity. Qed.
Theorem C49_neighbour_refuted : exists H left ops z t e env, closed_host H /\ agrees (sample env) H /\ has_ord (sample env) tt /\
  ord_compare H left ops = Ok [(LeftSide, z, t)] /\ plain_letter z /\ reads (t ++ as_string (var "x")) e /\
  eval (sample env) (Compare left (firstn 1 ops)) tt = (tt, Ok (VBool true)) /\ eval (sample env) e tt = (tt, Raise TypeError).
Proof. exact neighbour_refuted. Qed.

(** C50: the check ends if no operand is a constant other than an integer; it fails for a string. *)
Theorem C50_ends_partial : forall H left ops, ops <> [] -> Forall (int_or_unknown H) (left :: map snd ops) -> exists m, ord_compare H left ops = Ok m.
Proof. exact ord_compare_ends. Qed.
Example ex_ends : Forall (int_or_unknown basic) (num 96 :: map snd [(Lt, ord_c); (Le, var "x")]).
Proof. repeat constructor; [exists (VInt 96)|exists VNone|exists VNone]; (split; [reflexivity|]); [right; eexists; reflexivity|left; reflexivity|left; reflexivity]. Qed.
Theorem C50_string_refuted : exists H left ops, tame_host H /\ ops <> [] /\ ord_compare H left ops = Raise TypeError.
Proof. exact string_raises. Qed.

(** C51: for operands without effects. *)
Theorem C51_value_partial : forall H, closed_host H -> forall o a b, redundant_binary H o a b = Ok true -> o <> Div -> fine a = true -> fine b = true ->
  forall W (P : python W) w i j v, agrees P H -> is_int P w a i -> is_int P w b j -> gives P w (Binary o a b) v ->
  exists z, as_int v = Some z /\ (z = 0 \/ z = 1 \/ z = i \/ z = j \/ z = - i \/ z = - j)%Z.
Proof. exact redundant_value. Qed.
(** (2 - 2) - x *)
Example ex_redundant : let zero := Binary Sub (num 2) (num 2) in let env := [("x", VInt 7)] in
  redundant_binary basic Sub zero (var "x") = Ok true /\ is_int (sample env) tt zero 0 /\ is_int (sample env) tt (var "x") 7 /\ gives (sample env) tt (Binary Sub zero (var "x")) (VInt (-7)).
Proof. cbv zeta. refine (conj eq_refl (conj _ (conj _ eq_refl))); [exists (VInt 0)|exists (VInt 7)]; split; reflexivity. Qed.
Theorem C51_effects_refuted : exists H o a, redundant_binary H o a a = Ok true /\ agrees counting ints /\
  eval counting a 0 = (1, Ok (VInt 5)) /\ eval counting a 1 = (2, Ok (VInt 3)) /\ eval counting (Binary o a a) 0 = (2, Ok (VInt 2)).
Proof. exact effects_refuted. Qed.

(** C55: for one name as target; if the name is the right operand, for integers and a left operand without effects. *)
Theorem C55_same_partial : forall guess x v s t o p, assigned x v s -> augmentable guess s = Ok (Some (t, o, p)) -> fine v = true ->
  t = [TName x] /\ exists e, reads p e /\ forall W (P : program W) inplace w,
    (forall v u w, inplace o v u w = binary (py P) o v u w) ->
    (forall a, v = Binary o (Name x) a -> augmented P inplace x o e w = exec P s w) /\
    (forall a i j, v = Binary o a (Name x) -> is_int (py P) w a i -> is_int (py P) w (Name x) j -> augmented P inplace x o e w = exec P s w).
Proof. exact augmented_same. Qed.
(** x: int = y * 2 * x *)
Example ex_augmented : let v := Binary Mul (Binary Mul (var "y") (num 2)) (var "x") in
  assigned "x" v (AnnAssign (var "x") (Some v)) /\
  augmentable int_guess (AnnAssign (var "x") (Some v)) = Ok (Some ([TName "x"], Mul, [TName "y"; TBin Mul; TConst (CInt 2)])) /\
  is_int (py memory) (fun _ => 3%Z) (Binary Mul (var "y") (num 2)) 6 /\ is_int (py memory) (fun _ => 3%Z) (var "x") 3.
Proof. cbv zeta. refine (conj _ (conj eq_refl (conj _ _))); [right; reflexivity|exists (VInt 6); split; reflexivity|exists (VInt 3); split; reflexivity]. Qed.
Theorem C55_targets_refuted : exists s x o e m m', augmentable int_guess s = Ok (Some ([TName x], o, as_string e)) /\ reads (as_string e) e /\
  exec memory s (fun _ => 0%Z) = (m, Ok Next) /\ augmented memory (binary (py memory)) x o e (fun _ => 0%Z) = (m', Ok Next) /\ m "y" <> m' "y".
Proof. exact targets_refuted. Qed.

(** C56: with exact quotients, the value is kept exactly when the quotient is not negative or an integer. *)
Theorem C56_same_partial : forall a b W (P : python W) w i j, has_int P w -> gives P w a (VInt i) -> gives P w b (VInt j) -> j <> 0%Z ->
  (eval P (Call (Name "int") [Binary Div a b]) w = eval P (Binary FloorDiv a b) w <-> (0 <= i * j)%Z \/ (j | i)%Z).
Proof. exact @division_same. Qed.
Example ex_division : let P := divider Z.quot [("a", 7%Z)] in
  check_div (Call (Name "int") [Binary Div (var "a") (num 2)]) = true /\ has_int P tt /\ gives P tt (var "a") (VInt 7) /\ gives P tt (num 2) (VInt 2).
Proof. cbv zeta. exact (conj eq_refl (conj (divider_int _) (conj eq_refl eq_refl))). Qed.
Theorem C56_negative_refuted : exists e a b i j (P : python unit), check_div e = true /\ e = Call (Name "int") [Binary Div a b] /\ has_int P tt /\
  gives P tt a (VInt i) /\ gives P tt b (VInt j) /\ j <> 0%Z /\ eval P e tt <> eval P (Binary FloorDiv a b) tt.
Proof. exact negative_refuted. Qed.
Theorem C56_large_refuted : exists e a b (P : python unit) v u, check_div e = true /\ e = Call (Name "int") [Binary Div a b] /\ has_float P tt /\
  gives P tt e v /\ gives P tt (Binary FloorDiv a b) u /\ v <> u.
Proof. exact large_refuted. Qed.

(** C83: for operands that are bools and need no brackets after "not". *)
Theorem C83_bool_partial : forall x c val t, no_is x [(c, val)] = [t] -> fine x = true -> Nat.leb 4 (prec x) = true ->
  exists e, reads t e /\ forall W (P : python W) w b, has_is P -> gives P w x (VBool b) ->
    exists r, gives P w e (VBool r) /\ gives P w (Compare x [(c, val)]) (VBool r).
Proof. exact no_is_same. Qed.
(** (a < b) is not True *)
Example ex_no_is : let x := Compare (var "a") [(Lt, var "b")] in
  no_is x [(IsNot, Const (CBool true))] = [[TNot; TName "a"; TRel Lt; TName "b"]] /\ fine x = true /\ Nat.leb 4 (prec x) = true /\
  has_is (sample [("a", VInt 1); ("b", VInt 2)]) /\ gives (sample [("a", VInt 1); ("b", VInt 2)]) tt x (VBool true).
Proof. cbv zeta. exact (conj eq_refl (conj eq_refl (conj eq_refl (conj (sample_is _) eq_refl)))). Qed.
Theorem C83_truthy_refuted : exists x c val t e env, no_is x [(c, val)] = [t] /\ fine x = true /\ prec x = 15 /\ reads t e /\ has_is (sample env) /\
  test (sample env) (Compare x [(c, val)]) tt = (tt, Ok false) /\ test (sample env) e tt = (tt, Ok true).
Proof. exact truthy_refuted. Qed.
Theorem C83_misread_refuted : exists x c val t e env b, no_is x [(c, val)] = [t] /\ fine x = true /\ gives (sample env) tt x (VBool b) /\ reads t e /\ has_is (sample env) /\
  test (sample env) (Compare x [(c, val)]) tt = (tt, Ok false) /\ test (sample env) e tt = (tt, Ok true).
Proof. exact misread_refuted. Qed.

(** C84: where exactly one of the conditions holds, the elif can become an else, and its else is never reached. *)
Theorem C84_elif_partial : forall H c b c2 b2 o2 ms, redundant_elif H c [If c2 b2 o2] = Ok ms -> ms <> [] ->
  is_negation H c c2 false = Ok true /\ (List.In UnreachableElse ms <-> o2 <> []) /\ List.In RedundantElif ms /\
  forall W (P : program W) w, opposite (py P) w c c2 ->
    exec P (If c b [If c2 b2 o2]) w = exec P (If c b b2) w /\ forall o3, exec P (If c b [If c2 b2 o3]) w = exec P (If c b [If c2 b2 o2]) w.
Proof. exact redundant_elif_same. Qed.
Theorem C84_calm_partial : forall H, closed_host H -> forall W (P : program W), agrees (py P) H -> forall w c b c2 b2 o2 ms,
  redundant_elif H c [If c2 b2 o2] = Ok ms -> ms <> [] -> fine c = true -> fine c2 = true -> calm (py P) w c -> calm (py P) w c2 -> paired (py P) w c c2 ->
  exec P (If c b [If c2 b2 o2]) w = exec P (If c b b2) w.
Proof.
  intros H CH W P AG w c b c2 b2 o2 ms E N F1 F2 K1 K2 PR. destruct (redundant_elif_same H c b c2 b2 o2 ms E N) as (NG & _ & _ & S).
  exact (proj1 (S W P w (negation_turned H CH (py P) AG w c c2 false NG F1 F2 K1 K2 PR))).
Qed.
(** if x < y: ... elif x >= y: ... else: ... *)
Example ex_elif : let c := Compare (var "x") [(Lt, var "y")] in let c2 := Compare (var "x") [(Ge, var "y")] in
  redundant_elif basic c [If c2 [Pass] [OtherStmt 1]] = Ok [RedundantElif; UnreachableElse] /\ calm (py memory) (fun _ => 3%Z) c /\ calm (py memory) (fun _ => 3%Z) c2 /\ paired (py memory) (fun _ => 3%Z) c c2.
Proof.
  cbv zeta. refine (conj eq_refl (conj _ (conj _ _))).
  - split; [reflexivity|]. split; [reflexivity|]. exists (VInt 3), (VInt 3). split; [reflexivity|]. split; [reflexivity|]. exists 3%Z, 3%Z. split; reflexivity.
  - split; [reflexivity|]. split; [reflexivity|]. exists (VInt 3), (VInt 3). split; [reflexivity|]. split; [reflexivity|]. exists 3%Z, 3%Z. split; reflexivity.
  - intros c' x y v c'' x' y' v' [].
Qed.

(** C85: an element is appended alike; a starred element only if it gives exactly one value. *)
Theorem C85_append_partial : forall method args x, extend method args = Some x -> method = "extend" /\ exists es, args = [Some es] /\ forall value items l,
  match x with
  | Single _ => appended value items l x = Ok (extended value items l es)
  | Starred e => List.length (items e) = 1 -> appended value items l x = Ok (extended value items l es)
  end.
Proof. exact append_same. Qed.
Theorem C85_augmented_partial : forall o value0 x, augassign_extend o value0 = Some x -> o = Add /\ exists es, value0 = Some es /\ forall value items l,
  match x with
  | Single _ => appended value items l x = Ok (extended value items l es)
  | Starred e => List.length (items e) = 1 -> appended value items l x = Ok (extended value items l es)
  end.
Proof. exact append_augmented_same. Qed.
Example ex_append : extend "extend" [Some [Single (var "y")]] = Some (Single (var "y")) /\ augassign_extend Add (Some [Starred (var "y")]) = Some (Starred (var "y")).
Proof. split; reflexivity. Qed.
Theorem C85_starred_refuted : exists method args e, extend method args = Some (Starred e) /\ exists value items l es, args = [Some es] /\
  extended value items l es = l ++ [VInt 1; VInt 2] /\ appended value items l (Starred e) = Raise TypeError.
Proof. exact starred_refuted. Qed.

(** C86: exact if one operand is no list display; a product of two list displays fails. *)
Theorem C86_exact_partial : forall o a b, a = None \/ b = None -> exists r, multiplied_list o a b = Ok r /\
  (r = true <-> o = Mul /\ exists l x, (a = Some l \/ b = Some l) /\ List.In x l /\ (x = Display \/ exists f, x = CallOf f /\ List.In f ["list"; "set"; "dict"])).
Proof. exact multiplied_total. Qed.
Example ex_multiplied : multiplied_list Mul None (Some [Elsewise; CallOf "set"]) = Ok true.
Proof. reflexivity. Qed.
Theorem C86_two_refuted : exists a b, multiplied_list Mul a b = Raise AssertionError.
Proof. exact lists_raise. Qed.

Print Assumptions C44_members_partial.
Print Assumptions C44_unbracketed_refuted.
Print Assumptions C44_float_refuted.
Print Assumptions C45_twice_refuted.
Print Assumptions C45_pure_partial.
Print Assumptions C46_reported.
Print Assumptions C46_exact.
Print Assumptions C47_first_partial.
Print Assumptions C47_right_partial.
Print Assumptions C47_ends.
Print Assumptions C47_refuted.
Print Assumptions C48_value_partial.
Print Assumptions C48_minus_refuted.
Print Assumptions C48_quote_refuted.
Print Assumptions C49_first_partial.
Print Assumptions C49_last_partial.
Print Assumptions C49_neighbour_refuted.
Print Assumptions C50_ends_partial.
Print Assumptions C50_string_refuted.
Print Assumptions C51_value_partial.
Print Assumptions C51_effects_refuted.
Print Assumptions C55_same_partial.
Print Assumptions C55_targets_refuted.
Print Assumptions C56_same_partial.
Print Assumptions C56_negative_refuted.
Print Assumptions C56_large_refuted.
Print Assumptions C83_bool_partial.
Print Assumptions C83_truthy_refuted.
Print Assumptions C83_misread_refuted.
Print Assumptions C84_elif_partial.
Print Assumptions C84_calm_partial.
Print Assumptions C85_append_partial.
Print Assumptions C85_augmented_partial.
Print Assumptions C85_starred_refuted.
Print Assumptions C86_exact_partial.
Print Assumptions C86_two_refuted.
