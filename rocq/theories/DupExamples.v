(** Programs that the theorems about duplicate code in if statements apply to, and counterexamples. *)
From Coq Require Import String Ascii List Bool Arith ZArith Lia.
From Verif Require Import Base DupModel DupSpec DupProofs DupMoveProofs DupJoinProofs DupTableProofs.
Import ListNotations.
Local Open Scope string_scope.
Local Open Scope list_scope.
Local Open Scope nat_scope.

(** ** Silence about whole chains *)

Lemma whole_bodies : forall arms e s, e <> [] -> single_if e = false -> [s] = as_ifs arms e -> arms <> [] ->
  get_bodies (s :: elifs s) = Ok (branches_of arms e) /\ has_else_block (last_if s) = true.
Proof.
  induction arms as [|[t b] arms IH]; intros e s NE SE A NA; [congruence|]. cbn [as_ifs] in A. injection A as ->. destruct arms as [|[u c] arms].
  - cbn [as_ifs]. assert (EL : elifs (If t b e) = []). { destruct e as [|[id|x y z] [|w e]]; try reflexivity. discriminate. }
    unfold last_if. rewrite EL. cbn [last get_bodies body_of orelse_of bind has_else_block]. destruct e as [|y e]; [congruence|]. split; [reflexivity|].
    unfold has_elif_block. destruct y as [id|x1 x2 x3]; [reflexivity|]. destruct e; [discriminate|reflexivity].
  - set (s' := If u c (as_ifs arms e)). change (as_ifs ((u, c) :: arms) e) with [s'].
    destruct (IH e s' NE SE) as (G & L); [reflexivity|discriminate|]. assert (EL : elifs (If t b [s']) = s' :: elifs s') by reflexivity. rewrite EL. split.
    + cbn [get_bodies body_of bind] in G |- *. rewrite G. reflexivity.
    + unfold last_if. rewrite EL. unfold last_if in L. clear - L. revert L. generalize (elifs s') as es. intros es L.
      destruct es as [|x es]; [exact L|]. cbn [last] in L |- *. destruct es as [|y es]; [exact L|].
      assert (Q : last (y :: es) (If t b [s']) = last (y :: es) s') by (clear; revert y; induction es as [|z es IH]; intros y; [reflexivity|exact (IH z)]).
      rewrite Q. exact L.
Qed.

Lemma silent_whole : forall src prev node rest ms t body others e, [node] = as_ifs ((t, body) :: others) e -> e <> [] -> single_if e = false -> single_if body = false ->
  identical_in_if src prev node rest = Ok ms -> (forall m, List.In m ms -> exists a b c d, m = SeqIfs a b c d) ->
  ~ agree src true (branches_of ((t, body) :: others) e) 0 /\
  (agree src false (branches_of ((t, body) :: others) e) 0 -> ~ agree src false (branches_of ((t, body) :: others) e) 1 /\
    exists b s, List.In b (branches_of ((t, body) :: others) e) /\ nth_error (rev b) 0 = Some s /\ is_return src s = true).
Proof.
  intros src prev node rest ms t body others e A NE SE SB E NP. destruct (whole_bodies _ _ _ NE SE A ltac:(discriminate)) as (G & L).
  assert (I : is_if node = true) by (cbn [as_ifs] in A; injection A as ->; reflexivity).
  assert (X : extract_from_elif node = (true, node :: elifs node)).
  { unfold extract_from_elif. destruct (has_else_block node) eqn:H.
    - assert (EL : elifs node = []). { destruct node as [id|x y z]; [reflexivity|]. destruct z as [|[id|z1 z2 z3] [|w z]]; try reflexivity. discriminate. }
      rewrite EL. reflexivity.
    - assert (N0 : match node with If _ b _ => count_nested_ifs b | Other _ => 0 end = 0).
      { cbn [as_ifs] in A. injection A as ->. destruct body as [|[id|x y z] [|w body]]; try reflexivity. discriminate. }
      rewrite N0. cbn [Nat.eqb orb]. rewrite L. reflexivity. }
  apply (silent_parts src node _ _ I X G). unfold identical_in_if in E. rewrite X, G in E. cbn [bind] in E.
  destruct (identical_before_after_branch src (branches_of ((t, body) :: others) e)) as [ms'|x] eqn:B; cbn [bind] in E; [|discriminate].
  destruct ms' as [|m ms']; [reflexivity|]. exfalso. injection E as <-. destruct (NP m (or_introl eq_refl)) as (a & b & c & d & ->).
  assert (FP : Forall (fun m => is_part m = true) (SeqIfs a b c d :: ms')); [|inversion FP; discriminate].
  clear - B. destruct (branch_messages _ _ _ B) as (n & _ & H).
  assert (AF : forall ms0 ms, Forall (fun m => is_part m = true) ms0 -> identical_after src (branches_of ((t, body) :: others) e) ms0 = Ok ms -> Forall (fun m => is_part m = true) ms).
  { intros ms0 ms F0 Q. destruct (after_messages _ _ _ _ Q) as (j & _ & [(-> & _)|(_ & m & PM & ->)]); [exact F0|].
    apply Forall_app. split; [exact F0|]. destruct (part_is_part _ _ _ _ _ PM) as (l & ->). constructor; [reflexivity|constructor]. }
  destruct H as [(_ & H)|[(_ & _ & ->)|(_ & m & PM & H)]]; [exact (AF _ _ (Forall_nil _) H)|constructor; [reflexivity|constructor]|].
  destruct (part_is_part _ _ _ _ _ PM) as (l & ->). destruct H as [-> |H]; [constructor; [reflexivity|constructor]|].
  refine (AF _ _ _ H). constructor; [reflexivity|constructor].
Qed.

(** ** A language of few statements *)

(** The statement on a line: there are ten of them. *)
Definition on (line_ kind : nat) : stmt := Other (10 * line_ + kind).

Fixpoint unary (n : nat) (k : string) : string := match n with 0 => String "." k | S n => String "1" (unary n k) end.
Fixpoint cond_text (c : cond) (k : string) : string :=
  match c with
  | Basic n => String "b" (unary n k)
  | And a b => String "&" (cond_text a (cond_text b k))
  | Or a b => String "|" (cond_text a (cond_text b k))
  | Not a => String "!" (cond_text a k)
  end.
Section ListText.
  Variable one : stmt -> string -> string.
  Fixpoint list_text (l : list stmt) (k : string) : string := match l with [] => String ")" k | s :: l => one s (list_text l k) end.
End ListText.
Fixpoint stmt_text (s : stmt) (k : string) : string :=
  match s with
  | Other n => String "o" (unary (n mod 10) k)
  | If t b o => String "?" (cond_text t (list_text stmt_text b (list_text stmt_text o k)))
  end.

Lemma unary_inj : forall n m k j, unary n k = unary m j -> n = m /\ k = j.
Proof. induction n as [|n IH]; intros [|m] k j E; cbn [unary] in E; try discriminate; injection E as E; [split; [reflexivity|exact E]|]. destruct (IH _ _ _ E) as (-> & ->). split; reflexivity. Qed.
Lemma cond_inj : forall c d k j, cond_text c k = cond_text d j -> c = d /\ k = j.
Proof.
  induction c as [n|a IHa b IHb|a IHa b IHb|a IHa]; intros [m|a' b'|a' b'|a'] k j E; cbn [cond_text] in E; try discriminate; injection E as E.
  - apply unary_inj in E. destruct E as (-> & ->). split; reflexivity.
  - apply IHa in E. destruct E as (-> & E). apply IHb in E. destruct E as (-> & ->). split; reflexivity.
  - apply IHa in E. destruct E as (-> & E). apply IHb in E. destruct E as (-> & ->). split; reflexivity.
  - apply IHa in E. destruct E as (-> & ->). split; reflexivity.
Qed.
Lemma stmt_ind' (Q : stmt -> Prop) : (forall n, Q (Other n)) -> (forall t b o, Forall Q b -> Forall Q o -> Q (If t b o)) -> forall s, Q s.
Proof.
  intros HO HI. fix IH 1. intros [n|t b o]; [apply HO|]. apply HI; [induction b as [|x b IV]|induction o as [|x o IV]]; constructor; try apply IH; exact IV.
Qed.

Section Kinds.
  Context {State : Type}.
  Variable P : python State.
  Hypothesis kinds : forall n, other_run P n = other_run P (n mod 10).

  Definition alike (s s' : stmt) : Prop := forall st, run P s st = run P s' st.
  Lemma list_inj : forall l, Forall (fun s => forall s' k j, stmt_text s k = stmt_text s' j -> alike s s' /\ k = j) l ->
    forall l' k j, list_text stmt_text l k = list_text stmt_text l' j -> (forall st, run_block P l st = run_block P l' st) /\ k = j.
  Proof.
    intros l F. induction F as [|s l H F IH]; intros [|s' l'] k j E; cbn [list_text] in E.
    - injection E as E. split; [reflexivity|exact E].
    - destruct s'; discriminate.
    - destruct s; discriminate.
    - apply H in E. destruct E as (A & E). apply IH in E. destruct E as (B & ->). split; [|reflexivity].
      intros st. unfold run_block. cbn [run_list]. rewrite A. destruct (run P s' st) as [st' [|]]; [apply B|reflexivity].
  Qed.
  Lemma stmt_inj : forall s s' k j, stmt_text s k = stmt_text s' j -> alike s s' /\ k = j.
  Proof.
    induction s as [n|t b o Fb Fo] using stmt_ind'; intros [m|t' b' o'] k j E; cbn [stmt_text] in E; try discriminate.
    - assert (E2 : unary (n mod 10) k = unary (m mod 10) j) by congruence. apply unary_inj in E2. destruct E2 as (E2 & ->). split; [|reflexivity]. intros st. cbn [run]. rewrite (kinds n), (kinds m), E2. reflexivity.
    - injection E as E. apply cond_inj in E. destruct E as (-> & E). apply (list_inj b Fb) in E. destruct E as (B & E). apply (list_inj o Fo) in E. destruct E as (O & ->).
      split; [|reflexivity]. intros st. cbn [run]. destruct (truth P t' st) as [st' [[|]|]]; [apply B|apply O|reflexivity].
  Qed.
End Kinds.

(** The source: a statement takes one line. *)
Definition line (s : stmt) : Z := match s with Other n => Z.of_nat (n / 10) | If _ (Other n :: _) _ => (Z.of_nat (n / 10) - 1)%Z | If _ _ _ => 0%Z end.
Definition texts : source := mk_source (fun s => stmt_text s "") line line (fun s => match s with Other n => n mod 10 =? 9 | If _ _ _ => false end).

(** The state is the value of [x] and what was printed. [Basic n] is [x > n]; [Basic 50] calls a function that counts [x] down and gives whether it was
    positive. Of the statements, 0 is [x = 0], 5 is [x += 1], 9 is [return], and the others print their number. *)
Definition a_state : Type := Z * list nat.
Definition kind_run (kind : nat) (st : a_state) : a_state * bool :=
  match kind with
  | 0 => ((0%Z, snd st), true)
  | 5 => (((fst st + 1)%Z, snd st), true)
  | 9 => (st, false)
  | k => ((fst st, snd st ++ [k]), true)
  end.
Definition a_python : python a_state := mk_python a_state
  (fun n st => if n =? 50 then ((fst st - 1, snd st)%Z, Some (0 <? fst st)%Z) else (st, Some (Z.of_nat n <? fst st)%Z))
  (fun n => kind_run (n mod 10)).
Lemma texts_decide : text_decides a_python texts.
Proof.
  intros a b E st. refine (proj1 (stmt_inj a_python _ a b "" "" E) st). intros n. unfold a_python, other_run. rewrite Nat.mod_mod by discriminate. reflexivity.
Qed.

(** [if x > 0: print(1); print(2); print(3)] / [elif x > 1: print(4); print(2); print(3)] / [else: print(6); print(2); print(3)] *)
Definition same_end : stmt := If (Basic 0) [on 2 1; on 3 2; on 4 3] [If (Basic 1) [on 6 4; on 7 2; on 8 3] [on 10 6; on 11 2; on 12 3]].
Lemma same_end_found : identical_in_if texts None same_end [] = Ok [BranchesPart 2 false].
Proof. vm_compute. reflexivity. Qed.

(** [if x > 0: print(1); print(2)] / [else: print(1); print(3)] *)
Definition same_beginning : stmt := If (Basic 0) [on 2 1; on 3 2] [on 5 1; on 6 3].
Lemma pure_test l : (forall st, snd (run_block a_python l st) = true -> fst (fst (run_block a_python l st)) = fst st) -> forall n, n <> 50 -> undisturbed a_python l (Basic n).
Proof.
  intros H n N [x out]. apply Nat.eqb_neq in N. cbn [truth a_python basic_truth]. rewrite N. exists (Z.of_nat n <? x)%Z. split; [reflexivity|].
  intros st E. specialize (H (x, out)).  rewrite E in H. cbn [fst snd] in H. rewrite H by reflexivity. reflexivity.
Qed.
Lemma same_beginning_found : identical_in_if texts None same_beginning [] = Ok [BranchesPart 1 true] /\ Forall (undisturbed a_python [on 2 1]) [Basic 0].
Proof. split; [vm_compute; reflexivity|]. constructor; [|constructor]. apply pure_test; [intros [x out] _; reflexivity|discriminate]. Qed.

Definition same_all : stmt := If (Basic 0) [on 2 1; on 3 2] [on 5 1; on 6 2].
Lemma same_all_found : identical_in_if texts None same_all [] = Ok [IdenticalBranches] /\ Forall (undisturbed a_python []) [Basic 0].
Proof. split; [vm_compute; reflexivity|]. constructor; [|constructor]. apply pure_test; [intros [x out] _; reflexivity|discriminate]. Qed.

(** [if x > 0: x = 0; print(1)] / [else: x = 0; print(2)] *)
Definition resetting : stmt := If (Basic 0) [on 2 0; on 3 1] [on 5 0; on 6 2].
Lemma before_refuted : identical_in_if texts None resetting [] = Ok [BranchesPart 1 true] /\
  ~ same_run a_python [resetting] [on 2 0; If (Basic 0) [on 3 1] [on 6 2]].
Proof. split; [vm_compute; reflexivity|]. intros S1. specialize (S1 (1%Z, [])). vm_compute in S1. discriminate. Qed.

(** [if count_down(): print(1)] / [else: print(1)]: the call is lost. *)
Lemma removed_refuted : identical_in_if texts None (If (Basic 50) [on 2 1] [on 4 1]) [] = Ok [IdenticalBranches] /\
  ~ same_run a_python [If (Basic 50) [on 2 1] [on 4 1]] [on 2 1].
Proof. split; [vm_compute; reflexivity|]. intros S1. specialize (S1 (1%Z, [])). vm_compute in S1. discriminate. Qed.

(** Two parts of two lines are reported, but the first branch has three lines. *)
Definition overlapping : stmt := If (Basic 0) [on 2 1; on 3 2; on 4 1] [on 6 1; on 7 2; on 8 3; on 9 2; on 10 1].
Lemma both_refuted : identical_in_if texts None overlapping [] = Ok [BranchesPart 2 true; BranchesPart 2 false].
Proof. vm_compute. reflexivity. Qed.

(** ** Joining *)

(** [if x > 5: print(1)] / [elif x > 3: print(2)] / [elif x > 2: print(2)] / [elif x > 1: print(2)] / [else: print(3)] *)
Definition elif_chain : stmt := If (Basic 5) [on 2 1] [If (Basic 3) [on 4 2] [If (Basic 2) [on 6 2] [If (Basic 1) [on 8 2] [on 10 3]]]].
Lemma elif_chain_found : identical_in_if texts None elif_chain [] = Ok [SeqIfs true (0, 1) (0, 3) 3].
Proof. vm_compute. reflexivity. Qed.
(** [if x > 5: print(1)] and then [if x > 3: print(2)] / [elif x > 2: print(2)] *)
Definition later_chain : stmt := If (Basic 3) [on 4 2] [If (Basic 2) [on 6 2] []].
Lemma later_chain_found : identical_in_if texts None (If (Basic 5) [on 2 1] []) [later_chain] = Ok [SeqIfs false (1, 0) (1, 1) 2].
Proof. vm_compute. reflexivity. Qed.

(** [if x > 0: x += 1] and then [if x > 1: x += 1] *)
Definition count_once : stmt := If (Basic 0) [on 2 5] [].
Definition count_twice : stmt := If (Basic 1) [on 4 5] [].
Lemma twice_refuted : identical_in_if texts None count_once [count_twice] = Ok [SeqIfs false (0, 0) (1, 0) 2] /\
  ~ same_run a_python [count_once; count_twice] [If (Or (Basic 0) (Basic 1)) [on 2 5] []].
Proof. split; [vm_compute; reflexivity|]. intros S1. specialize (S1 (1%Z, [])). vm_compute in S1. discriminate. Qed.

(** [if x > 0: return] and then [if x > 1: return] / [else: print(3)]: an [else] does not end the search. *)
Definition leaving : stmt := If (Basic 1) [on 2 1] [].
Definition leaving_else : stmt := If (Basic 2) [on 4 1] [on 6 3].
Lemma else_refuted : identical_in_if texts None leaving [leaving_else] = Ok [SeqIfs false (0, 0) (1, 0) 2] /\
  ~ same_run a_python [leaving; leaving_else] [If (Or (Basic 1) (Basic 2)) [on 2 1] [on 6 3]] /\
  ~ same_run a_python [leaving; leaving_else] [If (Or (Basic 1) (Basic 2)) [on 2 1] []].
Proof.
  split; [vm_compute; reflexivity|]. split; intros S1; [specialize (S1 (2%Z, []))|specialize (S1 (0%Z, []))]; vm_compute in S1; discriminate.
Qed.

(** [if x > 2: x = 0] and then [if x > 1: x = 0]: the body makes the second condition false. *)
Lemma quiet_example : forall st st' c, run_block a_python [on 2 0] st = (st', true) -> List.In c (map fst [(Basic 1, [on 4 0])]) -> truth a_python c st' = (st', Some false).
Proof. intros [x out] st' c E [<-|[]]. vm_compute in E. injection E as <-. reflexivity. Qed.

(** ** Untwisted conditions *)

(** [if x > 1: (if x > 2: print(1) else: print(2)) else: (if x > 0: print(2) else: print(1))] *)
Definition twisted_pos : stmt := If (Basic 2) [on 3 1] [on 5 2].
Definition twisted_neg : stmt := If (Basic 0) [on 8 2] [on 10 1].
Lemma twisted_found : untwist texts [Basic 1] [[twisted_pos]; [twisted_neg]] =
  Some (If (Or (And (Basic 1) (Basic 2)) (And (Not (Basic 1)) (Not (Basic 0)))) [on 3 1] [on 5 2]) /\
  (forall st, fst (truth a_python (Basic 1) st) = st) /\
  (forall t b o st, twisted_pos = If t b o -> snd (truth a_python (Basic 1) (fst (truth a_python t st))) = snd (truth a_python (Basic 1) st)).
Proof.
  split; [vm_compute; reflexivity|]. split; [reflexivity|]. intros t b o st E. assert (t = Basic 2) as -> by (unfold twisted_pos in E; congruence). reflexivity.
Qed.
(** [if count_down(): (if x > 2: print(1) else: print(2)) else: (if x > 0: print(2) else: print(1))]: the function is called twice. *)
Lemma untwist_refuted : untwist texts [Basic 50] [[twisted_pos]; [twisted_neg]] =
  Some (If (Or (And (Basic 50) (Basic 2)) (And (Not (Basic 50)) (Not (Basic 0)))) [on 3 1] [on 5 2]) /\
  ~ same_run a_python [If (Basic 50) [twisted_pos] [twisted_neg]] [If (Or (And (Basic 50) (Basic 2)) (And (Not (Basic 50)) (Not (Basic 0)))) [on 3 1] [on 5 2]].
Proof. split; [vm_compute; reflexivity|]. intros S1. specialize (S1 (1%Z, [])). vm_compute in S1. discriminate. Qed.

(** ** Lists and dictionaries *)

Definition is_x (z : Z) : test := TCompare (ONameOf "x") [("==", OConst (CInt z))].
Definition reversed_is_x (z : Z) : test := TCompare (OConst (CInt z)) [("==", ONameOf "x")].
(** The value of [x] is a number. *)
Definition equal_to (v : Z) (n : string) (c : const) : bool := String.eqb n "x" && match int_value c with Some z => Z.eqb v z | None => false end.

(** [x == 2], [0 == x or x == 3], [x == 1] *)
Definition table_tests : list test := [is_x 2; TBool "or" [reversed_is_x 0; is_x 3]; is_x 1].
Definition table : list (list (list literal)) := [[[("x", CInt 2)]]; [[("x", CInt 0)]; [("x", CInt 3)]]; [[("x", CInt 1)]]].
Lemma table_found : map vals_from_simple_test table_tests = map Some table /\ same_variables table = true /\ uses_list table = true.
Proof. vm_compute. repeat split. Qed.
Lemma equal_to_int v : forall n c z, int_value c = Some z -> equal_to v n c = true -> Some v = Some z.
Proof.
  intros n c z V E. unfold equal_to in E. rewrite V in E. apply andb_true_iff in E. destruct E as (_ & E). apply Z.eqb_eq in E. congruence.
Qed.

(** [x == 1 and y == 2], [x == 1 and y == 3], [x == 2 and y == 2] *)
Definition both_are (a b : Z) : test := TBool "and" [is_x a; TCompare (ONameOf "y") [("==", OConst (CInt b))]].
Definition pair_tests : list test := [both_are 1 2; both_are 1 3; both_are 2 2].
Definition pairs : list (list (list literal)) := [[[("x", CInt 1); ("y", CInt 2)]]; [[("x", CInt 1); ("y", CInt 3)]]; [[("x", CInt 2); ("y", CInt 2)]]].
Definition equal_pair (v w : Z) (n : string) (c : const) : bool :=
  match int_value c with Some z => if String.eqb n "x" then Z.eqb v z else Z.eqb w z | None => false end.
Lemma pairs_found : map vals_from_simple_test pair_tests = map Some pairs /\ same_variables pairs = true /\ uses_list pairs = false /\
  forall i j t u, nth_error pair_tests i = Some t -> nth_error pair_tests j = Some u ->
    holds_test (equal_pair 1 3) (fun _ => false) t = true -> holds_test (equal_pair 1 3) (fun _ => false) u = true -> i = j.
Proof.
  split; [reflexivity|]. split; [reflexivity|]. split; [reflexivity|]. intros i j t u I J T U.
  destruct i as [|[|[|i]]]; destruct j as [|[|[|j]]]; try reflexivity; cbn in I, J; try (destruct i; discriminate); try (destruct j; discriminate);
    injection I as <-; injection J as <-; vm_compute in T, U; discriminate.
Qed.

(** [x == 1], [x == 1 or x == 2], [x == 3]: the second branch replaces the first one. *)
Definition overlap_tests : list test := [is_x 1; TBool "or" [is_x 1; is_x 2]; is_x 3].
Definition overlap : list (list (list literal)) := [[[("x", CInt 1)]]; [[("x", CInt 1)]; [("x", CInt 2)]]; [[("x", CInt 3)]]].
Lemma overlap_refuted : map vals_from_simple_test overlap_tests = map Some overlap /\ simple_part (map Some overlap) = Some (0, 2) /\ same_variables overlap = true /\
  looked_up (equal_to 1) ["x"] (entries overlap) = Some 1 /\ first_branch (equal_to 1) (fun _ => false) 0 overlap_tests = Some 0.
Proof. vm_compute. repeat split. Qed.

(** ** If expressions *)

(** [if x > 1: y = 1] / [elif x > 0: y = 2] / [else: y = 3] *)
Lemma ternary_found : ternary [Basic 1; Basic 0] "Const" [SubPlain "1"; SubPlain "2"; SubPlain "3"] =
  Ok (EIfExp (Basic 1) (EConst "1") (EIfExp (Basic 0) (EConst "2") (EConst "3"))).
Proof. reflexivity. Qed.
(** [if x > 1: f(a=1)] / [else: f(b=1)]: names of arguments become strings. *)
Lemma ternary_refuted : ternary [Basic 1] "Keyword" [SubPlain "a"; SubPlain "b"] = Ok (EIfExp (Basic 1) (EConst "a") (EConst "b")).
Proof. reflexivity. Qed.
