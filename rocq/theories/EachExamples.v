(** Programs for the theorems about iterating directly, and programs that refute properties. *)
From Coq Require Import String List Bool Arith NArith ZArith Lia.
From Verif Require Import Base PyModel PySpec IfModel IfSpec FoldModel TypeModel LocalSpec IterSpec LoopModel LoopSpec LoopProofs LoopRunProofs LoopExamples EachModel EachSpec EachProofs EachEventProofs.
Import ListNotations.
Local Open Scope string_scope.
Local Open Scope list_scope.

(** ** A Python with one list of integers: the variables, the list, and the range that has just been made.
    The list is the object 2; it is a dictionary of the keys 0, 1, ... if [keyed]. The object 4 is its method pop, which takes
    the first element away; only if [pops]. *)
Notation lstate := (list (string * value) * list Z * list value)%type.
Section Machine.
  Variables keyed pops : bool.
  Definition builtin (x : string) : option value := if String.eqb x "range" then Some (VObj 0) else if String.eqb x "len" then Some (VObj 3) else None.
  Definition indices (n : nat) : list value := map (fun k => VInt (Z.of_nat k)) (seq 0 n).
  Definition listing : program lstate := {|
    py := {|
      lookup := fun x w => match builtin x with Some v => Ok v | None => match got x (fst (fst w)) with Some v => Ok v | None => Raise (OtherError "NameError") end end;
      opaque := fun _ w => ((fst w, map VInt (snd (fst w))), Ok (VObj 1));
      call := fun f args w =>
        match f, args with
        | VObj 0, [VInt b] => ((fst w, indices (Z.to_nat b)), Ok (VObj 1))
        | VObj 3, [VObj 2] => (w, Ok (VInt (Z.of_nat (length (snd (fst w))))))
        | VObj 4, [] => if pops then ((fst (fst w), tl (snd (fst w)), snd w), Ok VNone) else (w, Raise TypeError)
        | _, _ => (w, Raise TypeError)
        end;
      attribute := fun v m w => match v with VObj 2 => if String.eqb m "pop" then (w, Ok (VObj 4)) else (w, Raise AttributeError) | _ => (w, Raise AttributeError) end;
      item := fun v k w => match v, k with VObj 2, VInt z => (w, match nth_error (snd (fst w)) (Z.to_nat z) with Some u => Ok (VInt u) | None => Raise IndexError end) | _, _ => (w, Raise TypeError) end;
      unary_op := fun _ _ w => (w, Raise TypeError);
      binary_op := fun _ _ _ w => (w, Raise TypeError);
      compare_op := fun _ _ _ w => (w, Raise TypeError);
      obj_truth := fun _ _ => Ok true
    |};
    store := fun t v w => match t with Name x => ((put x v (fst (fst w)), snd (fst w), snd w), Ok tt) | _ => (w, Raise TypeError) end;
    set_item := fun _ _ _ w => (w, Raise TypeError);
    set_attribute := fun _ _ _ w => (w, Raise TypeError);
    inplace := fun _ _ _ w => (w, Raise TypeError);
    elements := fun v w => match v with VObj 1 => ((fst w, []), Ok (snd w)) | VObj 2 => ((fst w, []), Ok (if keyed then indices (length (snd (fst w))) else map VInt (snd (fst w)))) | _ => (w, Raise TypeError) end;
    other := fun n w => (w, Some (Ok (VInt (Z.of_nat n))))
  |}.
End Machine.
Notation env_of w := (fst (fst w)).
Definition calm : program lstate := listing false false.
Definition at_first (env : list (string * value)) (l : list Z) : lstate := (env, l, []).
Definition len_of (a : string) : expr := Call (Name "range") [Call (Name "len") [Name a]].
Definition elem : expr := Subscript (Name "a") (Name "i").

(** ** Related states: the same variables apart from the index and the element, the same list *)
Section Related.
Variable l0 : list Z.
Definition apart_from (w u : lstate) : Prop := snd (fst w) = l0 /\ (forall y, y <> "i" -> y <> "x" -> got y (env_of w) = got y (env_of u)) /\ got "a" (env_of w) = Some (VObj 2) /\ snd (fst w) = snd (fst u) /\ snd w = snd u.
Definition at_element (w u : lstate) : Prop := apart_from w u /\ exists k v, got "i" (env_of w) = Some (VInt k) /\ nth_error (snd (fst w)) (Z.to_nat k) = Some v /\ got "x" (env_of u) = Some (VInt v).
Lemma same_but_pending env env' l p env2 : at_element (env, l, p) (env', l, p) -> at_element (env, l, env2) (env', l, env2).
Proof. intros [[L [A [B _]]] E]. split; [|exact E]. split; [exact L|]. split; [exact A|]. split; [exact B|]. split; reflexivity. Qed.
Lemma calm_in_step : in_step calm "a" "i" "x" false at_element.
Proof.
  assert (Ag : forall A (r : res A) w u, at_element w u -> agree at_element (w, r) (u, r)) by (intros A r w u H; split; [exact H|reflexivity]).
  split.
  - intros [[env l] p] [[env' l'] p'] [[L [A [B [C D]]]] (k & v & K & V & X)]. cbn [fst snd] in *. subst. cbn [eval andthen calm listing py lookup item builtin String.eqb Ascii.eqb Bool.eqb fst snd]. unfold andthen. cbn [fst snd].
    rewrite B, K. cbn [fst snd]. rewrite V, X. reflexivity.
  - intros y [[env l] p] [[env' l'] p'] X [N|N] [[_ [A _]] _]; [discriminate|]. cbn [calm listing py lookup fst snd] in *. rewrite (A y N X). reflexivity.
  - reflexivity.
  - intros n [[env l] p] [[env' l'] p'] H. pose proof H as [[_ [_ [_ [C D]]]] _]. cbn [fst snd] in C, D. subst. cbn [calm listing py opaque fst snd]. split; [exact (same_but_pending _ _ _ _ _ H)|reflexivity].
  - intros f vs [[env l] p] [[env' l'] p'] H. pose proof H as [[_ [_ [_ [C D]]]] _]. cbn [fst snd] in C, D. subst.
    destruct f as [| | | | |n]; try (apply Ag; exact H). do 5 (try destruct n as [|n]); try (apply Ag; exact H); destruct vs as [|[| |z| | |m] [|? ?]]; try (apply Ag; exact H).
    + split; [exact (same_but_pending _ _ _ _ _ H)|reflexivity].
    + do 3 (try destruct m as [|m]); apply Ag; exact H.
    + do 3 (try destruct m as [|m]); apply Ag; exact H.
  - intros v m w u H. destruct v as [| | | | |n]; try (apply Ag; exact H). do 3 (try destruct n as [|n]); try (apply Ag; exact H). cbn [calm listing py attribute]. destruct (String.eqb m "pop"); apply Ag; exact H.
  - intros v k [[env l] p] [[env' l'] p'] H. pose proof H as [[_ [_ [_ [C D]]]] _]. cbn [fst snd] in C, D. subst. destruct v as [| | | | |n]; try (apply Ag; exact H). do 3 (try destruct n as [|n]); try (apply Ag; exact H). destruct k; apply Ag; exact H.
  - intros o v w u H. apply Ag. exact H.
  - intros o v v' w u H. apply Ag. exact H.
  - intros o v v' w u H. apply Ag. exact H.
  - intros y v [[env l] p] [[env' l'] p'] Na Ni Nx [[L [A [B [C D]]]] (k & z & K & V & X)]. cbn [fst snd] in *. subst. cbn [calm listing store fst snd]. split; [|reflexivity]. cbn [fst snd]. split.
    + split; [reflexivity|]. split; [|split; [|split; reflexivity]]; cbn [fst snd].
      * intros q Qi Qx. destruct (string_dec y q) as [->|Q]; [rewrite !got_put; reflexivity|]. rewrite !got_other by exact Q. exact (A q Qi Qx).
      * rewrite got_other by exact Na. exact B.
    + exists k, z. cbn [fst snd]. rewrite !got_other by assumption. auto.
  - intros o k v w u H. apply Ag. exact H.
  - intros o m v w u H. apply Ag. exact H.
  - intros o v v' w u H. apply Ag. exact H.
  - intros v [[env l] p] [[env' l'] p'] H. pose proof H as [[_ [_ [_ [C D]]]] _]. cbn [fst snd] in C, D. subst.
    destruct v as [| | | | |n]; try (apply Ag; exact H). do 3 (try destruct n as [|n]); try (apply Ag; exact H); (split; [exact (same_but_pending _ _ _ _ _ H)|reflexivity]).
  - intros n w u H. split; [exact H|reflexivity].
Qed.
Lemma calm_next k v : nth_error l0 (Z.to_nat k) = Some v -> next_in_step calm "i" (Name "x") apart_from at_element (VInt k) (VInt v).
Proof.
  intros E [[env l] p] [[env' l'] p'] (L & A & B & C & D). cbn [fst snd] in *. subst. eexists. eexists. cbn [calm listing store fst snd]. split; [reflexivity|]. split; [reflexivity|]. split.
  - split; [reflexivity|]. split; [|split; [|split; reflexivity]]; cbn [fst snd].
    + intros q Qi Qx. rewrite !got_other by (intro X; congruence). exact (A q Qi Qx).
    + rewrite got_other by discriminate. exact B.
  - exists k, v. cbn [fst snd]. rewrite !got_put. auto.
Qed.
Lemma related_apart w u : at_element w u -> apart_from w u.
Proof. intros [A _]. exact A. Qed.
End Related.

(** ** for i in range(len(a)): if a[i] == 0: continue / n += a[i] *)
Definition summing : list stmt := [SIf (eqt elem (lit 0)) [SContinue] []; SAug "n" Add elem].
Definition summed : stmt := SFor (Name "i") (len_of "a") summing [].
Definition summed_each : stmt := SFor (Name "x") (Name "a") [SIf (eqt (Name "x") (lit 0)) [SContinue] []; SAug "n" Add (Name "x")] [].
Lemma summed_found : improve_for_loop summed = Some UseForeach /\ fine (len_of "a") = true /\ forallb parsed summing = true /\ existsb (uses_stmt "x") summing = false /\
  map (direct_stmt "a" "i" "x") summing = [SIf (eqt (Name "x") (lit 0)) [SContinue] []; SAug "n" Add (Name "x")].
Proof. repeat split; reflexivity. Qed.
Definition three : lstate := at_first [("a", VObj 2); ("n", VInt 0)] [4; 0; 5]%Z.
Lemma summed_agree : agree_outcomes (apart_from [4; 0; 5]%Z) (exec calm summed three) (exec calm summed_each three) /\
  exists w', exec calm summed three w' Normal /\ got "n" (env_of w') = Some (VInt 9).
Proof.
  split.
  - destruct summed_found as (F & Fi & Ps & Fx & D). destruct (reported_loop _ _ _ _ F Fi Ps) as (a & Sh & L).
    assert (a = "a"). { destruct Sh as (args & E & S). assert (args = [Call (Name "len") [Name "a"]]) by (unfold len_of in E; congruence). subst args. destruct S as [S|[(z & _ & S)|(z & o & _ & _ & S)]]; congruence. }
    subst a. specialize (L "x" (Name "x") (Name "a") ltac:(discriminate) Fx lstate calm (apart_from [4; 0; 5]%Z) (at_element [4; 0; 5]%Z) (indices 3) (map VInt [4; 0; 5]%Z) three three
      (fst three, []) (fst three, []) (calm_in_step _) (related_apart _) eq_refl eq_refl). rewrite D in L. apply L.
    + repeat split; intros; reflexivity.
    + repeat constructor; apply calm_next; reflexivity.
  - assert (G : exists w', get calm 20 summed three = Some (w', Normal) /\ got "n" (env_of w') = Some (VInt 9)) by (vm_compute; eexists; split; reflexivity).
    destruct G as (w' & G & N). exists w'. split; [exact (get_sound _ _ _ _ _ _ G)|exact N].
Qed.
(** for i in range(0, len(a)): n += a[i] * i *)
Definition weighing : list stmt := [SAug "n" Add (Binary Mul elem (Name "i"))].
Definition weighed : stmt := SFor (Name "i") (Call (Name "range") [lit 0; Call (Name "len") [Name "a"]]) weighing [].
Lemma weighed_found : improve_for_loop weighed = Some UseEnumerate /\ forallb parsed weighing = true /\ map (direct_stmt "a" "i" "x") weighing = [SAug "n" Add (Binary Mul (Name "x") (Name "i"))].
Proof. repeat split; reflexivity. Qed.
(** for i in range(len(a)): a[i] += 1 is not reported, and neither are for i in range(len(a)): n += b[i] and one with n += a[i + 1]. *)
Lemma not_found : improve_for_loop (SFor (Name "i") (len_of "a") [SStore elem (Binary Add elem (lit 1))] []) = None /\
  improve_for_loop (SFor (Name "i") (len_of "a") [SAug "n" Add elem; SAug "n" Add (Subscript (Name "b") (Name "i"))] []) = None /\
  improve_for_loop (SFor (Name "i") (len_of "a") [SAug "n" Add (Subscript (Name "a") (Binary Add (Name "i") (lit 1)))] []) = None.
Proof. repeat split; reflexivity. Qed.

(** ** Programs for which it makes a difference *)
Definition leaves_apart (P : program lstate) (s s' : stmt) (x : string) (w : lstate) : Prop :=
  exists w1 w2, exec P s w w1 Normal /\ exec P s' w w2 Normal /\ got x (env_of w1) <> got x (env_of w2).
Lemma leaves P s s' x w g g' : get P 20 s w = Some (g, Normal) -> get P 20 s' w = Some (g', Normal) -> got x (env_of g) <> got x (env_of g') -> leaves_apart P s s' x w.
Proof. intros G G' N. exists g, g'. split; [exact (get_sound _ _ _ _ _ _ G)|]. split; [exact (get_sound _ _ _ _ _ _ G')|exact N]. Qed.
Ltac compute_both := eapply leaves; [vm_compute; reflexivity|vm_compute; reflexivity|vm_compute; discriminate].
Definition pop (b : string) : stmt := SExpr (Call (Attribute (Name b) "pop") []).
(** for i in range(len(a)): a.pop(0); n += a[i]; break: the list is modified before its element is read. *)
Definition popping (b : string) : list stmt := [pop b; SAug "n" Add elem; SBreak].
Definition both : lstate := at_first [("a", VObj 2); ("b", VObj 2); ("n", VInt 0)] [4; 0; 5]%Z.
Theorem modified_refuted : improve_for_loop (SFor (Name "i") (len_of "a") (popping "a") []) = Some UseForeach /\ forallb parsed (popping "a") = true /\
  leaves_apart (listing false true) (SFor (Name "i") (len_of "a") (popping "a") []) (SFor (Name "x") (Name "a") (map (direct_stmt "a" "i" "x") (popping "a")) []) "n" both.
Proof. split; [reflexivity|]. split; [reflexivity|]. compute_both. Qed.
(** for i in range(len(a)): if n == 0: n = 1; b.pop(0) / n += a[i], where b is the same list. *)
Definition aliased : list stmt := [SIf (eqt (Name "n") (lit 0)) [SAssign "n" (lit 1); pop "b"] []; SAug "n" Add elem; SIf (lst (lit 4) (Name "n")) [SBreak] []; SIf (lst (Name "n") (lit 2)) [SBreak] []].
Theorem alias_refuted : improve_for_loop (SFor (Name "i") (len_of "a") aliased []) = Some UseForeach /\ forallb parsed aliased = true /\
  leaves_apart (listing false true) (SFor (Name "i") (len_of "a") aliased []) (SFor (Name "x") (Name "a") (map (direct_stmt "a" "i" "x") aliased) []) "n" both.
Proof. split; [reflexivity|]. split; [reflexivity|]. compute_both. Qed.
(** for i in range(len(a)): n += a[i], where a is a dictionary of the keys 0, 1, 2: iterating over it gives its keys. *)
Theorem dictionary_refuted : improve_for_loop (SFor (Name "i") (len_of "a") [SAug "n" Add elem] []) = Some UseForeach /\
  leaves_apart (listing true false) (SFor (Name "i") (len_of "a") [SAug "n" Add elem] []) (SFor (Name "x") (Name "a") (map (direct_stmt "a" "i" "x") [SAug "n" Add elem]) []) "n" both.
Proof. split; [reflexivity|]. compute_both. Qed.
(** The index after for i in range(len(a)): n += a[i]. *)
Theorem index_after_refuted : improve_for_loop (SFor (Name "i") (len_of "a") [SAug "n" Add elem] []) = Some UseForeach /\
  leaves_apart calm (SFor (Name "i") (len_of "a") [SAug "n" Add elem] []) (SFor (Name "x") (Name "a") (map (direct_stmt "a" "i" "x") [SAug "n" Add elem]) []) "i" both.
Proof. split; [reflexivity|]. compute_both. Qed.
(** for i in range(len(a)): n += a[i]; else: m = i, with the index in the else branch. *)
Theorem index_in_else_refuted : improve_for_loop (SFor (Name "i") (len_of "a") [SAug "n" Add elem] [SAssign "m" (Name "i")]) = Some UseForeach /\
  exists w1 w2 e, exec calm (SFor (Name "i") (len_of "a") [SAug "n" Add elem] [SAssign "m" (Name "i")]) both w1 Normal /\
    exec calm (SFor (Name "x") (Name "a") (map (direct_stmt "a" "i" "x") [SAug "n" Add elem]) (map (direct_stmt "a" "i" "x") [SAssign "m" (Name "i")])) both w2 (Left (Raise e)).
Proof.
  split; [reflexivity|].
  assert (G : exists w1 w2 e, get calm 20 (SFor (Name "i") (len_of "a") [SAug "n" Add elem] [SAssign "m" (Name "i")]) both = Some (w1, Normal) /\
    get calm 20 (SFor (Name "x") (Name "a") (map (direct_stmt "a" "i" "x") [SAug "n" Add elem]) (map (direct_stmt "a" "i" "x") [SAssign "m" (Name "i")])) both = Some (w2, Left (Raise e))) by (vm_compute; do 3 eexists; split; reflexivity).
  destruct G as (w1 & w2 & e & G1 & G2). exists w1, w2, e. split; [exact (get_sound _ _ _ _ _ _ G1)|exact (get_sound _ _ _ _ _ _ G2)].
Qed.
