(** Modules for the theorems about scopes. Nodes are numbered in the order of the text, scopes from 0 (the module). *)
From Coq Require Import String Ascii List Bool Arith.
From Verif Require Import Base ScopeModel ScopeSpec ScopeProofs ScopeCoverProofs.
Import ListNotations.
Local Open Scope string_scope.
Local Open Scope list_scope.

(** total = 0; def add(k): global total; for i in k: total += i; print([i for j in k if j]) *)
Definition counting : list stmt :=
  [SAssign [TName 1 "total"] (Node []);
   SDef 1 2 "add" [] [] [(3, "k")] []
     [SGlobal ["total"];
      SFor (TName 4 "i") (Name 5 "k") [SAug (TName 6 "total") (Name 7 "i")] [];
      SExpr (Call (Name 8 "print") [Comp 2 [Gen (TName 9 "j") (Name 10 "k") [Name 11 "j"]] [Name 12 "i"]])];
   SExpr (Call (Name 13 "add") [Name 14 "total"])].
Lemma counting_plain : plain 0 ["total"] counting.
Proof.
  split.
  - exists [], counting. split; [reflexivity|]. split; [constructor|]. repeat (constructor; [split; reflexivity|]). constructor.
  - constructor; [exact Logic.I|]. constructor; [|constructor; [exact Logic.I | constructor]]. cbn [plain_stmt]. split; [|split].
    + exists [SGlobal ["total"]]. eexists. split; [reflexivity|]. split; [repeat constructor|].
      repeat (constructor; [split; reflexivity|]). constructor.
    + constructor; [|constructor]. cbn. split; intros H; decompose [or] H; try discriminate; try contradiction.
    + split; [apply incl_refl|]. split; [split; [split; [exact Logic.I | exact Logic.I] | exact Logic.I]|]. split; exact Logic.I.
Qed.
Definition counting_events : list event :=
  Eval vm_compute in match collect 0 counting with Ok evs => evs | Raise _ => [] end.
Lemma counting_collected : collect 0 counting = Ok counting_events.
Proof. vm_compute. reflexivity. Qed.
Lemma counting_scopes : map (fun ev => (node ev, scope ev)) counting_events =
  [(1, 0); (2, 0); (13, 0); (14, 0); (3, 1); (4, 1); (5, 1); (6, 0); (7, 1); (6, 0); (9, 2); (10, 1); (11, 2); (12, 1)].
Proof. reflexivity. Qed.
Lemma counting_unambiguous : forall c v, List.In (6, "total", c, v) (names_of 0 counting) -> unambiguous 0 "total" c v.
Proof.
  intros c v H. cbn in H. repeat (destruct H as [H|H]; [try discriminate H|]); try contradiction.
  injection H as <- <-. intros sc r [I|[I|[]]] _; injection I as <- <-; reflexivity.
Qed.

Lemma counting_each : one_each 0 counting.
Proof. vm_compute. repeat (constructor; [cbn; intros W; decompose [or] W; try discriminate; contradiction|]); constructor. Qed.
Lemma counting_uses : List.In "total" (sets_of counting) /\ ~ List.In "total" (flat_map deleted_stmt counting)
  /\ existsb (fun d => definition d && existsb (fun p => Nat.eqb (fst p) 6 && String.eqb (snd p) "total") (used_stmt d)) counting = true.
Proof. split; [vm_compute; tauto|]. split; [intros [] | reflexivity]. Qed.

(** An event for which Python means another variable. *)
Definition mistaken (body : list stmt) : Prop :=
  exists evs ev c v, collect 0 body = Ok evs /\ List.In ev evs /\ List.In (node ev, name ev, c, v) (names_of 0 body)
    /\ one_each 0 body /\ scope ev <> resolve 0 c (name ev).
Ltac distinct := repeat (constructor; [cbn; intros W; decompose [or] W; try discriminate; contradiction|]); constructor.
Ltac mistake k := 
  match goal with |- mistaken ?b =>
    let r := eval vm_compute in (match collect 0 b with Ok evs => evs | Raise _ => [] end) in
    let e := eval vm_compute in (nth k r {| node := 0; name := ""; type := Read; scope := 0 |}) in
    exists r, e; let n := eval vm_compute in (node e) in
    let o := eval vm_compute in (find (fun o => match o with (i, _, _, _) => Nat.eqb i n end) (names_of 0 b)) in
    match o with Some (_, _, ?c, ?v) => exists c, v end
  end;
  split; [vm_compute; reflexivity|]; split; [vm_compute; tauto|]; split; [vm_compute; tauto|]; split; [vm_compute; distinct|];
  vm_compute; discriminate.

(** x = 1; def f(x=x): pass *)
Definition default_module : list stmt := [SAssign [TName 1 "x"] (Node []); SDef 1 2 "f" [] [] [(3, "x")] [Name 4 "x"] []].
(** x = 1; def f(): print(x); x = 2 *)
Definition early_module : list stmt :=
  [SAssign [TName 1 "x"] (Node []); SDef 1 2 "f" [] [] [] [] [SExpr (Name 3 "x"); SAssign [TName 4 "x"] (Node [])]].
(** x = 1; class A: x = 2; def f(self): return x *)
Definition class_module : list stmt :=
  [SAssign [TName 1 "x"] (Node []);
   SClass 1 2 "A" [] [SAssign [TName 3 "x"] (Node []); SDef 2 4 "f" [] [] [(5, "self")] [] [SExpr (Name 6 "x")]]].
(** x = [1]; y = [x for x in x] *)
Definition iterable_module : list stmt :=
  [SAssign [TName 1 "x"] (Node []); SAssign [TName 5 "y"] (Comp 1 [Gen (TName 3 "x") (Name 4 "x") []] [Name 2 "x"])].
(** def f(): x = 1; def g(): def h(): nonlocal x; x = 2 *)
Definition nonlocal_module : list stmt :=
  [SDef 1 1 "f" [] [] [] [] [SAssign [TName 2 "x"] (Node []);
     SDef 2 3 "g" [] [] [] [] [SDef 3 4 "h" [] [] [] [] [SNonlocal ["x"]; SAssign [TName 5 "x"] (Node [])]]]].
(** def f(): global x; del x; x = 1 *)
Definition deleted_module : list stmt :=
  [SDef 1 1 "f" [] [] [] [] [SGlobal ["x"]; SDel 2 "x"; SAssign [TName 3 "x"] (Node [])]].
Lemma default_mistaken : mistaken default_module. Proof. mistake 3. Qed.
Lemma early_mistaken : mistaken early_module. Proof. mistake 2. Qed.
Lemma class_mistaken : mistaken class_module. Proof. mistake 5. Qed.
Lemma iterable_mistaken : mistaken iterable_module. Proof. mistake 2. Qed.
Lemma nonlocal_mistaken : mistaken nonlocal_module. Proof. mistake 4. Qed.
Lemma deleted_mistaken : mistaken deleted_module. Proof. mistake 2. Qed.

(** A name of the module for which nothing is recorded. *)
Definition unseen (body : list stmt) (n : nat) (x : string) : Prop :=
  exists evs c v, collect 0 body = Ok evs /\ List.In (n, x, c, v) (names_of 0 body) /\ forall ev, List.In ev evs -> node ev <> n \/ name ev <> x.
Ltac nothing_seen :=
  match goal with |- unseen ?b ?n _ =>
    let r := eval vm_compute in (match collect 0 b with Ok evs => evs | Raise _ => [] end) in
    let o := eval vm_compute in (find (fun o => match o with (i, _, _, _) => Nat.eqb i n end) (names_of 0 b)) in
    exists r; match o with Some (_, _, ?c, ?v) => exists c, v end
  end;
  split; [vm_compute; reflexivity|]; split; [vm_compute; tauto|];
  intros ev H; cbn in H; repeat (destruct H as [<-|H]; [cbn; first [left; discriminate | right; discriminate]|]); contradiction.
(** if c: def f(): pass *)
Definition block_module : list stmt := [SBlocks [Name 1 "c"] [] [[SDef 1 2 "f" [] [] [] [] []]]].
(** import os.path *)
Definition import_module : list stmt := [SImport 1 [("os.path", None)]].
(** g = 1; @g def f(): pass *)
Definition decorator_module : list stmt := [SAssign [TName 1 "g"] (Node []); SDef 1 3 "f" [Name 2 "g"] [] [] [] []].
(** g = 1; def f(): return lambda y=g: y *)
Definition lambda_module : list stmt :=
  [SAssign [TName 1 "g"] (Node []); SDef 1 2 "f" [] [] [] [] [SExpr (Lambda 2 [(3, "y")] [Name 4 "g"] (Name 5 "y"))]].
Lemma block_unseen : unseen block_module 2 "f". Proof. nothing_seen. Qed.
Lemma import_unseen : unseen import_module 1 "os". Proof. nothing_seen. Qed.
Lemma decorator_unseen : unseen decorator_module 2 "g". Proof. nothing_seen. Qed.
Lemma lambda_unseen : unseen lambda_module 4 "g". Proof. nothing_seen. Qed.

(** def locals(): pass; locals() *)
Definition own_locals : list stmt := [SDef 1 1 "locals" [] [] [] [] []; SExpr (Call (Name 2 "locals") [])].
Lemma own_locals_raise : collect 0 own_locals = Raise (OtherError "UnknowableLocalsException")
  /\ resolve 0 (module_chain 0 own_locals) "locals" = 0 /\ List.In "locals" (flat_map bound_stmt own_locals).
Proof. split; [reflexivity|]. split; [reflexivity | now left]. Qed.
