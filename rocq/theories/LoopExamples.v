(** Programs for the theorems about loops, and programs that refute properties. *)
From Coq Require Import String List Bool Arith NArith ZArith Lia.
From Verif Require Import Base PyModel PySpec IfModel IfSpec FoldModel FoldSpec FoldExamples TypeModel LocalSpec IterSpec IterProofs LoopModel LoopSpec LoopProofs LoopRangeProofs LoopCountProofs LoopRunProofs.
Import ListNotations.
Local Open Scope string_scope.
Local Open Scope list_scope.

(** ** A Python with integers: the variables, and the elements of a range that has just been made *)
Notation state := (list (string * value) * list Z)%type.
Fixpoint put (x : string) (v : value) (env : list (string * value)) : list (string * value) :=
  match env with
  | [] => [(x, v)]
  | (y, u) :: r => if String.eqb y x then (y, v) :: r else (y, u) :: put x v r
  end.
Fixpoint got (x : string) (env : list (string * value)) : option value :=
  match env with [] => None | (y, u) :: r => if String.eqb y x then Some u else got x r end.
Lemma got_put x v env : got x (put x v env) = Some v.
Proof. induction env as [|[y u] env IH]; cbn; [rewrite String.eqb_refl; reflexivity|]. destruct (String.eqb y x) eqn:E; cbn; rewrite E; [reflexivity|exact IH]. Qed.
Lemma put_got x v env : got x env = Some v -> put x v env = env.
Proof. induction env as [|[y u] env IH]; cbn; [discriminate|]. destruct (String.eqb y x); intro E; [congruence|rewrite IH by exact E; reflexivity]. Qed.
(** Elements of range(a, b, s). *)
Definition range_list (a b s : Z) : list Z := arith a s (Z.to_nat (if Z.ltb 0 s then (b - a + s - 1) / s else (a - b - s - 1) / - s)%Z).
Definition machine : program state := {|
  py := {|
    lookup := fun x w => if String.eqb x "range" then Ok (VObj 0) else match got x (fst w) with Some v => Ok v | None => Raise (OtherError "NameError") end;
    opaque := fun _ w => (w, Raise TypeError);
    call := fun f args w =>
      match f, args with
      | VObj 0, [VInt b] => ((fst w, range_list 0 b 1), Ok (VObj 1))
      | VObj 0, [VInt a; VInt b] => ((fst w, range_list a b 1), Ok (VObj 1))
      | VObj 0, [VInt a; VInt b; VInt s] => ((fst w, range_list a b s), Ok (VObj 1))
      | _, _ => (w, Raise TypeError)
      end;
    attribute := fun _ _ w => (w, Raise TypeError);
    item := fun _ _ w => (w, Raise TypeError);
    unary_op := fun _ _ w => (w, Raise TypeError);
    binary_op := fun _ _ _ w => (w, Raise TypeError);
    compare_op := fun _ _ _ w => (w, Raise TypeError);
    obj_truth := fun _ _ => Ok true
  |};
  store := fun t v w => match t with Name x => if String.eqb x "range" then (w, Raise TypeError) else ((put x v (fst w), snd w), Ok tt) | _ => (w, Raise TypeError) end;
  set_item := fun _ _ _ w => (w, Raise TypeError);
  set_attribute := fun _ _ _ w => (w, Raise TypeError);
  inplace := fun _ _ _ w => (w, Raise TypeError);
  elements := fun _ w => ((fst w, []), Ok (map VInt (snd w)));
  other := fun n w => (w, Some (Ok (VInt (Z.of_nat n))))
|}.
Lemma machine_agrees : agrees (py machine) ints.
Proof. split; intros; reflexivity. Qed.
Lemma machine_stores x : x <> "range" -> names_stored machine x.
Proof.
  intros N v [env l]. apply String.eqb_neq in N. exists (put x v env, l). cbn [machine store py lookup fst snd]. rewrite N. split; [reflexivity|]. rewrite got_put. reflexivity.
Qed.
Lemma machine_stores_again x : x <> "range" -> stored_again machine x.
Proof.
  intros N v [env l]. apply String.eqb_neq in N. cbn [machine store py lookup fst snd]. rewrite N. destruct (got x env) eqn:G; [|discriminate].
  intro E. injection E as ->. rewrite (put_got _ _ _ G). reflexivity.
Qed.
Lemma fixed_num (n : N) : fixed machine (Const (CInt n)) (Z.of_N n).
Proof. intro w. exists (VInt (Z.of_N n)). split; reflexivity. Qed.
Definition lit (n : N) : expr := Const (CInt n).
Definition eqt (a b : expr) : expr := Compare a [(Eq, b)].
Definition lst (a b : expr) : expr := Compare a [(Lt, b)].
Definition range2 (a b : expr) : expr := Call (Name "range") [a; b].
Definition range3 (a b s : expr) : expr := Call (Name "range") [a; b; s].
Definition start (env : list (string * Z)) : state := (map (fun p => (fst p, VInt (snd p))) env, []).

(** ** While True *)
(** while True: if i == 3: n = i; break / else: n = 7; i += 1 *)
Definition search : stmt := SWhile (Const (CBool true)) [SIf (eqt (Name "i") (lit 3)) ([SAssign "n" (Name "i")] ++ [SBreak]) [SAssign "n" (lit 7)]; SAug "i" Add (lit 1)] [].
Lemma search_found : no_while_true search = Some [TName "i"; TRel Eq; TConst (CInt 3)] /\ get_block machine 9 [search] (start [("i", 0%Z)]) = Some (start [("i", 3%Z); ("n", 3%Z)], Normal).
Proof. split; vm_compute; reflexivity. Qed.
(** while True: if i == 3: n = 1; break / i += 1; if i == 2: break *)
Definition two_breaks : stmt := SWhile (Const (CBool true)) [SIf (eqt (Name "i") (lit 3)) ([SAssign "n" (lit 1)] ++ [SBreak]) []; SAug "i" Add (lit 1); SIf (eqt (Name "i") (lit 2)) [SBreak] []] [].
Theorem two_breaks_refuted : exists t pre rest, two_breaks = SWhile (Const (CBool true)) (SIf t (pre ++ [SBreak]) [] :: rest) [] /\ no_while_true two_breaks = Some (as_string t) /\
  existsb breaks pre = false /\ existsb continues pre = false /\ exists W (P : program W), ~ same_runs (exec P two_breaks) (block P (SWhile (Unary Not t) rest [] :: pre)).
Proof.
  exists (eqt (Name "i") (lit 3)), [SAssign "n" (lit 1)], [SAug "i" Add (lit 1); SIf (eqt (Name "i") (lit 2)) [SBreak] []]. split; [reflexivity|]. split; [reflexivity|]. split; [reflexivity|]. split; [reflexivity|]. exists state, machine.
  intro S. eapply (differ machine 9 [two_breaks] (SWhile (Unary Not (eqt (Name "i") (lit 3))) [SAug "i" Add (lit 1); SIf (eqt (Name "i") (lit 2)) [SBreak] []] [] :: [SAssign "n" (lit 1)]) (start [("i", 0%Z)])); [vm_compute; reflexivity|vm_compute; reflexivity|intro E; discriminate E|].
  intros w w' o. rewrite <- (S w w' o). apply block_one.
Qed.
(** while True: if i == 3: break / i += 1; else: n = 1 *)
Definition with_else : stmt := SWhile (Const (CBool true)) [SIf (eqt (Name "i") (lit 3)) [SBreak] []; SAug "i" Add (lit 1)] [SAssign "n" (lit 1)].
Theorem else_refuted : exists t rest orelse, with_else = SWhile (Const (CBool true)) (SIf t [SBreak] [] :: rest) orelse /\ no_while_true with_else = Some (as_string t) /\ existsb breaks rest = false /\
  exists W (P : program W), ~ same_runs (exec P with_else) (exec P (SWhile (Unary Not t) rest orelse)).
Proof.
  exists (eqt (Name "i") (lit 3)), [SAug "i" Add (lit 1)], [SAssign "n" (lit 1)]. split; [reflexivity|]. split; [reflexivity|]. split; [reflexivity|]. exists state, machine. intro S.
  eapply (differ machine 9 [with_else] [SWhile (Unary Not (eqt (Name "i") (lit 3))) [SAug "i" Add (lit 1)] [SAssign "n" (lit 1)]] (start [("i", 0%Z)])); [vm_compute; reflexivity|vm_compute; reflexivity|intro E; discriminate E|].
  intros w w' o. rewrite (block_one machine _ w w' o), (S w w' o). symmetry. apply block_one.
Qed.

(** ** Ranges *)
Definition total : stmt := SAug "n" Add (Name "i").
(** for i in range(1, 4): if i == 1: continue / n += i *)
Definition skip_first : stmt := SFor (Name "i") (range2 (lit 1) (lit 4)) [SIf (eqt (Name "i") (lit 1)) [SContinue] []; total] [].
Lemma range_1_4 : is_range 1 4 1 [1; 2; 3]%Z.
Proof. pose proof (arith_range 1 1 3 ltac:(lia) ltac:(lia)) as R. exact R. Qed.
Lemma skip_first_found : use_tighter_bounds ints skip_first = Ok (Some First) /\ is_range 1 4 1 [1; 2; 3]%Z /\ iterates_over machine (start [("n", 0%Z)]) (range2 (lit 1) (lit 4)) [1; 2; 3]%Z.
Proof. split; [reflexivity|]. split; [apply range_1_4|reflexivity]. Qed.
(** for i in range(1, 4): if i == 3: break / n += i *)
Definition skip_last : stmt := SFor (Name "i") (range2 (lit 1) (lit 4)) [SIf (eqt (Name "i") (lit 3)) [SBreak] []; total] [].
Lemma skip_last_found : use_tighter_bounds ints skip_last = Ok (Some Last) /\ is_range 1 4 1 [1; 2; 3]%Z /\ List.In (4 - 1)%Z [1; 2; 3]%Z /\ iterates_over machine (start [("n", 0%Z)]) (range2 (lit 1) (lit 4)) [1; 2; 3]%Z.
Proof. split; [reflexivity|]. split; [apply range_1_4|]. split; [cbn; auto|reflexivity]. Qed.

Definition sets_apart (s s' : stmt) (x : string) (w : state) : Prop :=
  exists w1 w2, exec machine s w w1 Normal /\ exec machine s' w w2 Normal /\ got x (fst w1) <> got x (fst w2).
Lemma apart s s' x w g g' : get machine 20 s w = Some (g, Normal) -> get machine 20 s' w = Some (g', Normal) -> got x (fst g) <> got x (fst g') -> sets_apart s s' x w.
Proof. intros G G' N. exists g, g'. split; [exact (get_sound _ _ _ _ _ _ G)|]. split; [exact (get_sound _ _ _ _ _ _ G')|exact N]. Qed.
(** for i in range(1, 4): if i == 1: break / n += i *)
Definition break_first : stmt := SFor (Name "i") (range2 (lit 1) (lit 4)) [SIf (eqt (Name "i") (lit 1)) [SBreak] []; total] [].
Theorem break_first_refuted : use_tighter_bounds ints break_first = Ok (Some First) /\ sets_apart break_first (SFor (Name "i") (range2 (lit 2) (lit 4)) [total] []) "n" (start [("n", 0%Z)]).
Proof. split; [reflexivity|]. eapply apart; [vm_compute; reflexivity|vm_compute; reflexivity|vm_compute; discriminate]. Qed.
(** for i in range(0, 10, 3): if i == 10 - 3: continue / n += i *)
Definition not_reached : stmt := SFor (Name "i") (range3 (lit 0) (lit 10) (lit 3)) [SIf (eqt (Name "i") (Binary Sub (lit 10) (lit 3))) [SContinue] []; total] [].
Theorem not_reached_refuted : use_tighter_bounds ints not_reached = Ok (Some Last) /\ sets_apart not_reached (SFor (Name "i") (range3 (lit 0) (lit 7) (lit 3)) [total] []) "n" (start [("n", 0%Z)]).
Proof. split; [reflexivity|]. eapply apart; [vm_compute; reflexivity|vm_compute; reflexivity|vm_compute; discriminate]. Qed.
(** for i in range(m, 4): if i == m: continue / n += i; m += 1 *)
Definition moving : stmt := SFor (Name "i") (range2 (Name "m") (lit 4)) [SIf (eqt (Name "i") (Name "m")) [SContinue] []; total; SAug "m" Add (lit 2)] [].
Theorem moving_refuted : use_tighter_bounds ints moving = Ok (Some First) /\
  sets_apart moving (SFor (Name "i") (range2 (Binary Add (Name "m") (lit 1)) (lit 4)) [total; SAug "m" Add (lit 2)] []) "n" (start [("n", 0%Z); ("m", 1%Z)]).
Proof. split; [reflexivity|]. eapply apart; [vm_compute; reflexivity|vm_compute; reflexivity|vm_compute; discriminate]. Qed.
(** for i in range(1, 4): if i == 3: break / n += i; else: n = 0 *)
Definition else_last : stmt := SFor (Name "i") (range2 (lit 1) (lit 4)) [SIf (eqt (Name "i") (lit 3)) [SBreak] []; total] [SAssign "n" (lit 0)].
Theorem else_last_refuted : use_tighter_bounds ints else_last = Ok (Some Last) /\ sets_apart else_last (SFor (Name "i") (range2 (lit 1) (lit 3)) [total] [SAssign "n" (lit 0)]) "n" (start [("n", 0%Z)]).
Proof. split; [reflexivity|]. eapply apart; [vm_compute; reflexivity|vm_compute; reflexivity|vm_compute; discriminate]. Qed.
(** The target after for i in range(1, 4): if i == 3: break / n += i *)
Theorem target_refuted : use_tighter_bounds ints skip_last = Ok (Some Last) /\ sets_apart skip_last (SFor (Name "i") (range2 (lit 1) (lit 3)) [total] []) "i" (start [("n", 0%Z)]).
Proof. split; [reflexivity|]. eapply apart; [vm_compute; reflexivity|vm_compute; reflexivity|vm_compute; discriminate]. Qed.

(** ** Counting *)
(** while i < 4: n += i; i = 1 + i *)
Definition count_up : stmt := SAssign "i" (Binary Add (lit 1) (Name "i")).
Lemma count_up_found : use_for_loop ints (lst (Name "i") (lit 4)) [("i", [count_up])] true = Ok true /\ fine_stmt count_up = true /\ subtracts_itself count_up = false /\
  get_change_value ints count_up = Ok (Some (VInt 1)) /\ existsb continues [total] = false.
Proof. repeat split; reflexivity. Qed.
Lemma machine_lookup x w : x <> "range" -> lookup (py machine) x w = match got x (fst w) with Some v => Ok v | None => Raise (OtherError "NameError") end.
Proof. intro N. apply String.eqb_neq in N. cbn [machine py lookup]. rewrite N. reflexivity. Qed.
Lemma got_other x y v env : y <> x -> got x (put y v env) = got x env.
Proof.
  intro N. induction env as [|[z u] env IH]; cbn [put got].
  - apply String.eqb_neq in N. rewrite N. reflexivity.
  - destruct (String.eqb z y) eqn:E; cbn [got]; [|rewrite IH; reflexivity]. apply String.eqb_eq in E. subst. apply String.eqb_neq in N. rewrite N. reflexivity.
Qed.
Lemma total_keeps w w' i : counts machine w "i" i -> block machine [total] w w' Normal -> counts machine w' "i" i.
Proof.
  intros C R. apply block_one in R. unfold counts in *. cbn [total exec] in R. unfold after, andthen in R. cbn [eval] in R. rewrite C in R.
  rewrite machine_lookup in R by discriminate. rewrite machine_lookup in C |- * by discriminate.
  destruct (got "n" (fst w)) as [v|]; [|destruct R; discriminate]. unfold augmented in R. destruct (as_int v) as [k|] eqn:K.
  - cbn [as_int] in R. rewrite (as_int_binary (py machine) Add v (VInt i) k i w eq_refl K eq_refl) in R. destruct R as [-> _]. cbn [fst]. rewrite got_other by discriminate. exact C.
  - destruct R as [_ R]. discriminate.
Qed.
(** while x > 0: x = 1 - x, from x == 2: one iteration, and the range has two elements. *)
Definition reflect : stmt := SAssign "x" (Binary Sub (lit 1) (Name "x")).
Definition positive : expr := Compare (Name "x") [(Gt, lit 0)].
Theorem reflect_refuted : use_for_loop ints positive [("x", [reflect])] true = Ok true /\ get_change_value ints reflect = Ok (Some (VInt (-1))) /\
  sets_apart (SWhile positive [SAug "n" Add (lit 1); reflect] []) (SFor (Name "x") (range3 (Name "x") (lit 0) (Unary Neg (lit 1))) [SAug "n" Add (lit 1); reflect] []) "n" (start [("x", 2%Z); ("n", 0%Z)]).
Proof. split; [reflexivity|]. split; [reflexivity|]. eapply apart; [vm_compute; reflexivity|vm_compute; reflexivity|vm_compute; discriminate]. Qed.
(** while x < 3: x += 1.0 *)
Definition with_floats : program state := {| py := py machine; store := store machine; set_item := set_item machine; set_attribute := set_attribute machine; inplace := fun _ _ _ w => (w, Ok (VFloat "1.0")); elements := elements machine; other := other machine |}.
Theorem float_refuted : exists s, s = SAug "x" Add (Const (CFloat "1.0")) /\ use_for_loop ints (lst (Name "x") (lit 3)) [("x", [s])] true = Ok true /\ exists W (P : program W) w w', names_stored P "x" /\ counts P w "x" 0 /\ exec P s w w' Normal /\ forall i, ~ counts P w' "x" i.
Proof.
  eexists. split; [reflexivity|]. split; [reflexivity|]. exists state, with_floats, (start [("x", 0%Z)]), ([("x", VFloat "1.0")], []).
  split; [exact (machine_stores "x" ltac:(discriminate))|]. split; [reflexivity|]. split; [split; reflexivity|]. intros i C. discriminate C.
Qed.
(** The variable after the loop, without the increment: while x < 3: x += 1 and for x in range(x, 3): n += 0. *)
Theorem after_refuted : use_for_loop ints (lst (Name "x") (lit 3)) [("x", [SAug "x" Add (lit 1)])] true = Ok true /\
  sets_apart (SWhile (lst (Name "x") (lit 3)) [SAug "n" Add (Name "x"); SAug "x" Add (lit 1)] []) (SFor (Name "x") (range2 (Name "x") (lit 3)) [SAug "n" Add (Name "x")] []) "x" (start [("x", 0%Z); ("n", 0%Z)]).
Proof. split; [reflexivity|]. eapply apart; [vm_compute; reflexivity|vm_compute; reflexivity|vm_compute; discriminate]. Qed.
