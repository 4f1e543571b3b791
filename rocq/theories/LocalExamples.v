(** Witnesses and examples for the messages about single expressions and statements. *)
From Coq Require Import String Ascii List Bool Arith NArith ZArith Lia Cantor.
From Verif Require Import Base PyModel PySpec PyProofs IfModel IfSpec IfProofs FoldModel FoldSpec FoldProofs FoldExamples TypeModel LocalModel LocalSpec TextProofs LocalProofs LetterProofs RangeProofs SmallProofs.
Import ListNotations.
Local Open Scope string_scope.
Local Open Scope list_scope.

(** ** A program with range, ord and is *)
Definition zig (z : Z) : nat := Z.to_nat (if Z.ltb z 0 then -2 * z - 1 else 2 * z)%Z.
Definition zag (n : nat) : Z := (if Nat.even n then Z.of_nat n / 2 else - ((Z.of_nat n + 1) / 2))%Z.
Lemma zag_zig z : zag (zig z) = z.
Proof.
  unfold zag, zig. destruct (Z.ltb_spec z 0).
  - replace (Nat.even (Z.to_nat (-2 * z - 1))) with false.
    + rewrite Z2Nat.id by lia. replace (-2 * z - 1 + 1)%Z with ((- z) * 2)%Z by ring. rewrite Z.div_mul; lia.
    + replace (Z.to_nat (-2 * z - 1)) with (S (2 * Z.to_nat (- z - 1))) by lia. rewrite Nat.even_succ, <- Nat.negb_even, Nat.even_mul. reflexivity.
  - replace (Nat.even (Z.to_nat (2 * z))) with true.
    + rewrite Z2Nat.id by lia. rewrite Z.mul_comm, Z.div_mul; lia.
    + replace (Z.to_nat (2 * z)) with (2 * Z.to_nat z) by lia. rewrite Nat.even_mul. reflexivity.
Qed.
Definition coded (a b s : Z) : nat := Cantor.to_nat (zig a, Cantor.to_nat (zig b, zig s)).
Definition decoded (n : nat) : Z * Z * Z := let '(a, m) := Cantor.of_nat n in let '(b, s) := Cantor.of_nat m in (zag a, zag b, zag s).
Lemma decoded_coded a b s : decoded (coded a b s) = (a, b, s).
Proof. unfold decoded, coded. rewrite !Cantor.cancel_of_to, !zag_zig. reflexivity. Qed.
Definition in_list (x : Z) (n : nat) : bool := let '(a, b, s) := decoded n in existsb (Z.eqb x) (range_list a b s).

(** Bools, integers, and the float 1.5 compared with integers. *)
Definition basic : host := {|
  host_unary := fun _ _ => Raise TypeError;
  host_binary := fun _ _ _ => Raise TypeError;
  host_compare := fun c v u =>
    match c, v, u with
    | Is, _, VBool b => Ok (VBool (match v with VBool b' => Bool.eqb b b' | _ => false end))
    | IsNot, _, VBool b => Ok (VBool (negb (match v with VBool b' => Bool.eqb b b' | _ => false end)))
    | Le, VInt z, VFloat "1.5" => Ok (VBool (Z.leb z 1))
    | Lt, VFloat "1.5", VInt z => Ok (VBool (Z.ltb 1 z))
    | _, _, _ => Raise TypeError
    end
|}.
Definition basic_call (f : value) (args : list value) : res value :=
  match f, args with
  | VObj 0, _ =>
      match map as_int args with
      | [Some b] => Ok (VObj (coded 0 b 1))
      | [Some a; Some b] => Ok (VObj (coded a b 1))
      | [Some a; Some b; Some s] => Ok (VObj (coded a b s))
      | _ => Raise TypeError
      end
  | VObj 1, [VStr (String c "")] => Ok (VInt (Z.of_nat (nat_of_ascii c)))
  | VObj 2, [v] => Ok v
  | _, _ => Raise TypeError
  end.
Definition builtins : list (string * value) := [("range", VObj 0); ("ord", VObj 1); ("abs", VObj 2); ("int", VObj 2); ("input", VObj 3)].
Definition find_name (env : list (string * value)) (x : string) : res value :=
  match find (fun p => String.eqb (fst p) x) (env ++ builtins) with Some (_, v) => Ok v | None => Raise (OtherError "NameError") end.
Definition basic_compare (c : cmpop) (v u : value) : res value :=
  match c, u with
  | In, VObj n => Ok (VBool (match v with VInt x => in_list x n | _ => false end))
  | NotIn, VObj n => Ok (VBool (negb (match v with VInt x => in_list x n | _ => false end)))
  | _, _ => host_compare basic c v u
  end.
Definition sample (env : list (string * value)) : python unit := {|
  lookup := fun x _ => find_name env x;
  opaque := fun _ w => (w, Raise TypeError);
  call := fun f args w => (w, basic_call f args);
  attribute := fun _ _ w => (w, Raise TypeError);
  item := fun _ _ w => (w, Raise TypeError);
  unary_op := fun _ _ w => (w, Raise TypeError);
  binary_op := fun _ _ _ w => (w, Raise TypeError);
  compare_op := fun c v u w => (w, basic_compare c v u);
  obj_truth := fun _ _ => Ok true
|}.
Lemma basic_closed : closed_host basic.
Proof.
  split; try (intros; discriminate). intros c v u r H. unfold basic in H. cbn [host_compare] in H.
  assert (B : exists b, r = VBool b); [|destruct B as (b & ->); exact Logic.I].
  repeat (match type of H with context [match ?x with _ => _ end] => destruct x; try discriminate H end); injection H as <-; eauto.
Qed.
Lemma basic_agrees env : agrees (sample env) basic.
Proof. split; try reflexivity. intros c v u w _ U. cbn [compare_op sample]. unfold basic_compare. destruct c, u; try reflexivity; destruct U. Qed.
Lemma sample_is env : has_is (sample env).
Proof. intros v b w. split; reflexivity. Qed.
Lemma sample_range env : find_name env "range" = Ok (VObj 0) -> has_range (sample env) tt.
Proof.
  intro L. exists (VObj 0). split; [exact L|]. intros vs a b s M N. exists (coded a b s). split.
  - cbn [call sample basic_call]. f_equal. destruct (map as_int vs) as [|[x|] [|[y|] [|[z|] [|]]]]; try contradiction; destruct M as (-> & -> & ->); reflexivity.
  - intro x. exists (in_list x (coded a b s)). split; [|split; reflexivity]. unfold in_list. rewrite decoded_coded, existsb_exists, <- (range_members a b s x N).
    split; [intros (y & I & E); apply Z.eqb_eq in E; subst; exact I|intro I; exists x; split; [exact I|apply Z.eqb_refl]].
Qed.
Lemma sample_ord env : find_name env "ord" = Ok (VObj 1) -> has_ord (sample env) tt.
Proof. intro L. exists (VObj 1). split; [exact L|]. intro c. reflexivity. Qed.

(** ** Membership *)
Definition all_pure : purity := {| pure_function := fun _ => true; pure_opaque := fun _ => true |}.
Definition builtin_types : analysis := {| defs := fun _ => []; is_builtin_name := fun x => existsb (String.eqb x) ["abs"; "int"; "input"]; imported_from := fun _ => None; opaque_type := fun _ => no_types |}.
(** The check of [takes_only_int_values], with the guesses of the linter. *)
Definition guessed_int (e : expr) : bool := match guess_type 5 builtin_types None e with Ok (Some ts) => has_only ts [TInt] | _ => false end.
Definition in_range_call (args : list expr) : list (cmpop * expr) := [(In, Call (Name "range") args)].

(** x in range(a or b, 9) and a or b <= x and x < 9 *)
Lemma unbracketed_refuted : exists H I only_ints args t e env, closed_host H /\ agrees (sample env) H /\ has_range (sample env) tt /\
  in_range H I only_ints (var "x") (in_range_call args) = Ok (Some (Plain, t)) /\ reads t e /\
  test (sample env) (Compare (var "x") (in_range_call args)) tt = (tt, Ok false) /\ test (sample env) e tt = (tt, Ok true).
Proof.
  exists basic, all_pure, (fun _ => true), [BoolOp Or [var "a"; var "b"]; num 9].
  exists [TName "a"; TOr; TName "b"; TRel Le; TName "x"; TAnd; TName "x"; TRel Lt; TConst (CInt 9)].
  exists (BoolOp Or [var "a"; BoolOp And [Compare (var "b") [(Le, var "x")]; Compare (var "x") [(Lt, num 9)]]]), [("a", VInt 1); ("b", VInt 2); ("x", VInt 0)].
  refine (conj basic_closed (conj (basic_agrees _) (conj _ (conj eq_refl (conj _ (conj _ eq_refl)))))).
  - apply sample_range. reflexivity.
  - exists 100. vm_compute. reflexivity.
  - vm_compute. reflexivity.
Qed.
(** abs(1.5) in range(9): the linter takes abs(...) for an integer. *)
Lemma float_refuted : exists H A args t e env, closed_host H /\ agrees (sample env) H /\ has_range (sample env) tt /\
  in_range H A guessed_int (Call (Name "abs") [Const (CFloat "1.5")]) (in_range_call args) = Ok (Some (Plain, t)) /\ reads t e /\
  test (sample env) (Compare (Call (Name "abs") [Const (CFloat "1.5")]) (in_range_call args)) tt = (tt, Ok false) /\ test (sample env) e tt = (tt, Ok true).
Proof.
  exists basic, all_pure, [num 9].
  exists ([TConst (CInt 0); TRel Le] ++ as_string (Call (Name "abs") [Const (CFloat "1.5")]) ++ [TAnd] ++ as_string (Call (Name "abs") [Const (CFloat "1.5")]) ++ [TRel Lt; TConst (CInt 9)]).
  exists (BoolOp And [Compare (num 0) [(Le, Call (Name "abs") [Const (CFloat "1.5")])]; Compare (Call (Name "abs") [Const (CFloat "1.5")]) [(Lt, num 9)]]), [].
  refine (conj basic_closed (conj (basic_agrees _) (conj _ (conj eq_refl (conj _ (conj eq_refl eq_refl)))))).
  - apply sample_range. reflexivity.
  - exists 100. vm_compute. reflexivity.
Qed.
(** A program that reads the numbers 0, 1, 2 and so on. *)
Definition reader : python nat := {|
  lookup := fun x _ => find_name [] x;
  opaque := fun _ w => (w, Raise TypeError);
  call := fun f args w => match f with VObj 3 => (S w, Ok (VInt (Z.of_nat w))) | _ => (w, basic_call f args) end;
  attribute := fun _ _ w => (w, Raise TypeError);
  item := fun _ _ w => (w, Raise TypeError);
  unary_op := fun _ _ w => (w, Raise TypeError);
  binary_op := fun _ _ _ w => (w, Raise TypeError);
  compare_op := fun c v u w => (w, basic_compare c v u);
  obj_truth := fun _ _ => Ok true
|}.
Definition read_int : expr := Call (Name "int") [Call (Name "input") []].
Lemma reader_range w : has_range reader w.
Proof.
  exists (VObj 0). split; [reflexivity|]. intros vs a b s M N. exists (coded a b s). split.
  - cbn [call reader basic_call]. f_equal. destruct (map as_int vs) as [|[x|] [|[y|] [|[z|] [|]]]]; try contradiction; destruct M as (-> & -> & ->); reflexivity.
  - intro x. exists (in_list x (coded a b s)). split; [|split; reflexivity]. unfold in_list. rewrite decoded_coded, existsb_exists, <- (range_members a b s x N).
    split; [intros (y & I & E); apply Z.eqb_eq in E; subst; exact I|intro I; exists x; split; [exact I|apply Z.eqb_refl]].
Qed.
(** int(input()) in range(1, 5) and 1 <= int(input()) and int(input()) < 5 *)
Lemma twice_refuted : exists H I left args t e, closed_host H /\ agrees reader H /\ (forall w, has_range reader w) /\
  in_range H I guessed_int left (in_range_call args) = Ok (Some (Plain, t)) /\ reads t e /\
  test reader (Compare left (in_range_call args)) 4 = (5, Ok true) /\ test reader e 4 = (6, Ok false).
Proof.
  exists basic, all_pure, read_int, [num 1; num 5].
  exists ([TConst (CInt 1); TRel Le] ++ as_string read_int ++ [TAnd] ++ as_string read_int ++ [TRel Lt; TConst (CInt 5)]).
  exists (BoolOp And [Compare (num 1) [(Le, read_int)]; Compare read_int [(Lt, num 5)]]).
  assert (AG : agrees reader basic).
  { split; try reflexivity. intros c v u w _ U. cbn [compare_op reader]. unfold basic_compare. destruct c, u; try reflexivity; destruct U. }
  refine (conj basic_closed (conj AG (conj reader_range (conj eq_refl (conj _ (conj _ eq_refl)))))).
  - exists 100. vm_compute. reflexivity.
  - vm_compute. reflexivity.
Qed.

(** ** Repeated operations *)
(** a + a + b *)
Lemma repeated_refuted : exists e x y z, repeated_operation e = Ok true /\ operands Add e = [x; y; z] /\ as_string x <> as_string z.
Proof. exists (Binary Add (Binary Add (var "a") (var "a")) (var "b")), (var "a"), (var "a"), (var "b"). split; [reflexivity|]. split; [reflexivity|discriminate]. Qed.

(** ** Letters *)
Definition ord_c : expr := Call (Name "ord") [var "c"].
(** ord(c) - 96 and ord(c) - ord('a') - 1 *)
Lemma minus_refuted : exists H o a b s z t e env v v', closed_host H /\ agrees (sample env) H /\ has_ord (sample env) tt /\
  use_ord_letter H o a b = Ok [(s, z, t)] /\ plain_letter z /\ reads (replaced o a b s t) e /\
  gives (sample env) tt (Binary o a b) v /\ gives (sample env) tt e v' /\ v <> v'.
Proof.
  exists basic, Sub, ord_c, (num 96), RightSide, 96%Z, (ord_letter 97 ++ [TBin Sub; TConst (CInt 1)]).
  exists (Binary Sub (Binary Sub ord_c (Call (Name "ord") [Const (CStr "a")])) (num 1)), [("c", VStr "b")], (VInt 2), (VInt 0).
  refine (conj basic_closed (conj (basic_agrees _) (conj _ (conj eq_refl (conj _ (conj _ (conj eq_refl (conj eq_refl _)))))))).
  - apply sample_ord. reflexivity.
  - split; discriminate.
  - exists 100. vm_compute. reflexivity.
  - discriminate.
Qed.
Definition count_close (t : token) : Z := match t with TNegOpen => -1 | TNegClose => 1 | _ => 0 end.
Lemma count_close_paired : paired_weight count_close.
Proof. split; try reflexivity. intros []; exact Logic.I || reflexivity. Qed.
(** ord(c) - 39 and ord(c) - ord(''') *)
Lemma quote_refuted : exists H o a b s z t, closed_host H /\ use_ord_letter H o a b = Ok [(s, z, t)] /\ forall e, ~ reads (replaced o a b s t) e.
Proof.
  exists basic, Sub, ord_c, (num 39), RightSide, 39%Z, (ord_letter 39). refine (conj basic_closed (conj eq_refl _)). intros e R.
  apply (reads_balanced count_close count_close_paired) in R. discriminate R.
Qed.
(** 97 <= x <= ord(c) and 'a' <= x: the neighbour is a number, and 'a' <= x is an error. *)
Lemma neighbour_refuted : exists H left ops z t e env, closed_host H /\ agrees (sample env) H /\ has_ord (sample env) tt /\
  ord_compare H left ops = Ok [(LeftSide, z, t)] /\ plain_letter z /\ reads (t ++ as_string (var "x")) e /\
  eval (sample env) (Compare left (firstn 1 ops)) tt = (tt, Ok (VBool true)) /\ eval (sample env) e tt = (tt, Raise TypeError).
Proof.
  exists basic, (num 97), [(Le, var "x"); (Le, ord_c)], 97%Z, [TConst (CStr "a"); TRel Le], (Compare (Const (CStr "a")) [(Le, var "x")]), [("x", VInt 98); ("c", VStr "z")].
  refine (conj basic_closed (conj (basic_agrees _) (conj _ (conj eq_refl (conj _ (conj _ (conj eq_refl eq_refl))))))).
  - apply sample_ord. reflexivity.
  - split; discriminate.
  - exists 100. vm_compute. reflexivity.
Qed.
(** ord(c) == "a" *)
Lemma string_raises : exists H left ops, tame_host H /\ ops <> [] /\ ord_compare H left ops = Raise TypeError.
Proof.
  exists ints, ord_c, [(Eq, Const (CStr "a"))]. split; [apply ints_tame|]. split; [discriminate|reflexivity].
Qed.

(** ** Redundant arithmetic *)
(** f() % f() where f gives 5 and then 3 *)
Definition counting : python nat := {|
  lookup := fun _ _ => Ok (VObj 0);
  opaque := fun _ w => (w, Raise TypeError);
  call := fun _ _ w => (S w, Ok (VInt (match w with 0 => 5 | _ => 3 end)));
  attribute := fun _ _ w => (w, Raise TypeError);
  item := fun _ _ w => (w, Raise TypeError);
  unary_op := fun _ _ w => (w, Raise TypeError);
  binary_op := fun _ _ _ w => (w, Raise TypeError);
  compare_op := fun _ _ _ w => (w, Raise TypeError);
  obj_truth := fun _ _ => Ok true
|}.
Lemma effects_refuted : exists H o a, redundant_binary H o a a = Ok true /\ agrees counting ints /\
  eval counting a 0 = (1, Ok (VInt 5)) /\ eval counting a 1 = (2, Ok (VInt 3)) /\ eval counting (Binary o a a) 0 = (2, Ok (VInt 2)).
Proof. exists ints, Mod, (Call (Name "f") []). refine (conj eq_refl (conj _ (conj eq_refl (conj eq_refl eq_refl)))). split; reflexivity. Qed.

(** ** Division *)
(** Integers whose quotient is an object that "int" turns into an integer. *)
Definition divider (quotient : Z -> Z -> Z) (env : list (string * Z)) : python unit := {|
  lookup := fun x w => if String.eqb x "int" then Ok (VObj 0) else lookup (vars env) x w;
  opaque := fun _ w => (w, Raise TypeError);
  call := fun _ args w => (w, match args with [VObj n] => let '(a, b, _) := decoded n in Ok (VInt (quotient a b)) | _ => Raise TypeError end);
  attribute := fun _ _ w => (w, Raise TypeError);
  item := fun _ _ w => (w, Raise TypeError);
  unary_op := fun _ _ w => (w, Raise TypeError);
  binary_op := fun o v u w => (w, match o, v, u with Div, VInt a, VInt b => Ok (VObj (coded a b 0)) | _, _, _ => Raise TypeError end);
  compare_op := fun _ _ _ w => (w, Raise TypeError);
  obj_truth := fun _ _ => Ok true
|}.
Lemma divider_int env : has_int (divider Z.quot env) tt.
Proof. exists (VObj 0). split; [reflexivity|]. intros a b _. exists (VObj (coded a b 0)). split; [reflexivity|]. cbn [call divider]. rewrite decoded_coded. reflexivity. Qed.
Lemma divider_float env : has_float (divider (fun z _ => nearest z) env) tt.
Proof. exists (VObj 0). split; [reflexivity|]. intros z _. exists (VObj (coded z 1 0)). split; [reflexivity|]. cbn [call divider]. rewrite decoded_coded. reflexivity. Qed.
(** int(-1 / 2) is 0, -1 // 2 is -1 *)
Lemma negative_refuted : exists e a b i j (P : python unit), check_div e = true /\ e = Call (Name "int") [Binary Div a b] /\ has_int P tt /\
  gives P tt a (VInt i) /\ gives P tt b (VInt j) /\ j <> 0%Z /\ eval P e tt <> eval P (Binary FloorDiv a b) tt.
Proof.
  exists (Call (Name "int") [Binary Div (var "a") (num 2)]), (var "a"), (num 2), (-1)%Z, 2%Z, (divider Z.quot [("a", (-1)%Z)]).
  refine (conj eq_refl (conj eq_refl (conj (divider_int _) (conj eq_refl (conj eq_refl (conj _ _)))))); [discriminate|].
  rewrite (division_same (var "a") (num 2) (divider Z.quot [("a", (-1)%Z)]) tt (-1) 2 (divider_int _) eq_refl eq_refl ltac:(discriminate)).
  intros [L|(k & K)]; lia.
Qed.
Lemma large_refuted : exists e a b (P : python unit) v u, check_div e = true /\ e = Call (Name "int") [Binary Div a b] /\ has_float P tt /\
  gives P tt e v /\ gives P tt (Binary FloorDiv a b) u /\ v <> u.
Proof.
  exists (Call (Name "int") [Binary Div (var "a") (num 1)]), (var "a"), (num 1), (divider (fun z _ => nearest z) [("a", 9007199254740993%Z)]), (VInt 9007199254740992), (VInt 9007199254740993).
  destruct (division_rounds (var "a") (divider (fun z _ => nearest z) [("a", 9007199254740993%Z)]) tt (divider_float _) eq_refl) as [G1 G2].
  refine (conj eq_refl (conj eq_refl (conj (divider_float _) (conj G1 (conj G2 _))))). congruence.
Qed.

(** ** Augmented assignment *)
(** A program whose state is the value of each name. *)
Definition memory : program (string -> Z) := {|
  py := {|
    lookup := fun x m => Ok (VInt (m x));
    opaque := fun _ w => (w, Raise TypeError);
    call := fun _ _ w => (w, Raise TypeError);
    attribute := fun _ _ w => (w, Raise TypeError);
    item := fun _ _ w => (w, Raise TypeError);
    unary_op := fun _ _ w => (w, Raise TypeError);
    binary_op := fun _ _ _ w => (w, Raise TypeError);
    compare_op := fun _ _ _ w => (w, Raise TypeError);
    obj_truth := fun _ _ => Ok true
  |};
  store_name := fun x v m => match as_int v with Some z => (fun y => if String.eqb x y then z else m y, Ok tt) | None => (m, Raise TypeError) end;
  store_attribute := fun _ _ _ w => (w, Raise TypeError);
  store_item := fun _ _ _ w => (w, Raise TypeError);
  store_other := fun _ _ w => (w, Raise TypeError);
  augment := fun _ _ _ w => (w, Raise TypeError);
  delete := fun _ w => (w, Raise TypeError);
  loop := fun _ _ w => (w, Raise TypeError);
  other := fun _ w => (w, Raise TypeError)
|}.
Definition int_guess (e : expr) : option types := Some (only TInt).
(** x = y = x + 1 and x += 1 *)
Lemma targets_refuted : exists s x o e m m', augmentable int_guess s = Ok (Some ([TName x], o, as_string e)) /\ reads (as_string e) e /\
  exec memory s (fun _ => 0%Z) = (m, Ok Next) /\ augmented memory (binary (py memory)) x o e (fun _ => 0%Z) = (m', Ok Next) /\ m "y" <> m' "y".
Proof.
  exists (Assign [var "x"; var "y"] (Binary Add (var "x") (num 1))), "x", Add, (num 1). do 2 eexists.
  refine (conj eq_refl (conj _ (conj eq_refl (conj eq_refl _)))); [exists 50; vm_compute; reflexivity|]. vm_compute. discriminate.
Qed.

(** ** Comparisons with bools *)
(** x is True and x, for x = 5 *)
Lemma truthy_refuted : exists x c val t e env, no_is x [(c, val)] = [t] /\ fine x = true /\ prec x = 15 /\ reads t e /\ has_is (sample env) /\
  test (sample env) (Compare x [(c, val)]) tt = (tt, Ok false) /\ test (sample env) e tt = (tt, Ok true).
Proof.
  exists (var "x"), Is, (Const (CBool true)), [TName "x"], (var "x"), [("x", VInt 5)].
  refine (conj eq_refl (conj eq_refl (conj eq_refl (conj _ (conj (sample_is _) (conj eq_refl eq_refl)))))). exists 50. vm_compute. reflexivity.
Qed.
(** (a or b) is False and not a or b, for a = False and b = True *)
Lemma misread_refuted : exists x c val t e env b, no_is x [(c, val)] = [t] /\ fine x = true /\ gives (sample env) tt x (VBool b) /\ reads t e /\ has_is (sample env) /\
  test (sample env) (Compare x [(c, val)]) tt = (tt, Ok false) /\ test (sample env) e tt = (tt, Ok true).
Proof.
  exists (BoolOp Or [var "a"; var "b"]), Is, (Const (CBool false)), [TNot; TName "a"; TOr; TName "b"], (BoolOp Or [Unary Not (var "a"); var "b"]), [("a", VBool false); ("b", VBool true)], true.
  refine (conj eq_refl (conj eq_refl (conj eq_refl (conj _ (conj (sample_is _) (conj eq_refl eq_refl)))))). exists 100. vm_compute. reflexivity.
Qed.
Lemma lists_raise : exists a b, multiplied_list Mul a b = Raise AssertionError.
Proof. exists (Some [Elsewise]), (Some [Display]). reflexivity. Qed.
