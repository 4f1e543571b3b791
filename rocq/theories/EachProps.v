(** Theorems about the suggestions to iterate over a structure directly. *)
From Coq Require Import String List Bool Arith NArith ZArith.
From Verif Require Import Base PyModel PySpec IfModel IfSpec FoldModel TypeModel LocalSpec LoopModel LoopSpec LoopExamples EachModel EachSpec EachProofs EachEventProofs EachModProofs EachExamples.
Import ListNotations.
Local Open Scope string_scope.
Local Open Scope list_scope.

(** C110: what the messages say about the loop's body. *)
Theorem C110_body : forall i iter body orelse m, improve_for_loop (SFor (Name i) iter body orelse) = Some m -> fine iter = true -> forallb parsed body = true -> exists a, over_indices iter a /\
  existsb (assigns_name a) body = false /\ existsb (assigns_name i) body = false /\
  forall x, i <> x ->
    existsb (uses_stmt x) (map (direct_stmt a i x) body) = true /\
    (m = UseForeach -> existsb (uses_stmt i) (map (direct_stmt a i x) body) = false) /\
    (m = UseEnumerate -> a <> i -> existsb (uses_stmt i) (map (direct_stmt a i x) body) = true).
Proof. exact reported_body. Qed.
Print Assumptions C110_body.
Example C110_body_foreach : improve_for_loop summed = Some UseForeach /\ fine (len_of "a") = true /\ forallb parsed summing = true /\ existsb (uses_stmt "x") summing = false /\
  map (direct_stmt "a" "i" "x") summing = [SIf (eqt (Name "x") (lit 0)) [SContinue] []; SAug "n" Add (Name "x")].
Proof. exact summed_found. Qed.
Example C110_body_enumerate : improve_for_loop weighed = Some UseEnumerate /\ forallb parsed weighing = true /\ map (direct_stmt "a" "i" "x") weighing = [SAug "n" Add (Binary Mul (Name "x") (Name "i"))].
Proof. exact weighed_found. Qed.
Example C110_body_none : improve_for_loop (SFor (Name "i") (len_of "a") [SStore elem (Binary Add elem (lit 1))] []) = None /\
  improve_for_loop (SFor (Name "i") (len_of "a") [SAug "n" Add elem; SAug "n" Add (Subscript (Name "b") (Name "i"))] []) = None /\
  improve_for_loop (SFor (Name "i") (len_of "a") [SAug "n" Add (Subscript (Name "a") (Binary Add (Name "i") (lit 1)))] []) = None.
Proof. exact not_found. Qed.

(** C110: the loops do the same while the structure stays as it is. *)
Theorem C110_same_partial : forall i iter body m, improve_for_loop (SFor (Name i) iter body []) = Some m -> fine iter = true -> forallb parsed body = true -> exists a, over_indices iter a /\
  forall x t it, i <> x -> existsb (uses_stmt x) body = false -> forall W (P : program W) (R0 R : W -> W -> Prop) ks vs w u w1 u1,
    in_step P a i x (kept m) R -> (forall w u, R w u -> R0 w u) ->
    andthen (eval (py P) iter) (elements P) w = (w1, Ok ks) -> andthen (eval (py P) it) (elements P) u = (u1, Ok vs) -> R0 w1 u1 -> Forall2 (next_in_step P i t R0 R) ks vs ->
    agree_outcomes R0 (exec P (SFor (Name i) iter body []) w) (exec P (SFor t it (map (direct_stmt a i x) body) []) u).
Proof. exact reported_loop. Qed.
Print Assumptions C110_same_partial.
Example C110_same_example : agree_outcomes (apart_from [4; 0; 5]%Z) (exec calm summed three) (exec calm summed_each three) /\
  exists w', exec calm summed three w' Normal /\ got "n" (fst (fst w')) = Some (VInt 9).
Proof. exact summed_agree. Qed.

(** C110: the body does not call a method that modifies a list on the structure, except in blocks that end with break or return. *)
Theorem C110_unmodified : forall i iter body orelse m, improve_for_loop (SFor (Name i) iter body orelse) = Some m -> fine iter = true -> forallb parsed body = true ->
  exists a, over_indices iter a /\ existsb (mutates a (ends_in_leave body)) body = false.
Proof. exact reported_mods. Qed.
Print Assumptions C110_unmodified.
Example C110_unmodified_example : existsb (mutates "a" false) [SIf (Name "c") [pop "a"] []] = true /\ improve_for_loop (SFor (Name "i") (len_of "a") [SAug "n" Add elem; SIf (Name "c") [pop "a"] []] []) = None /\
  improve_for_loop summed = Some UseForeach.
Proof. repeat split; reflexivity. Qed.

(** C110: what the loops do is not the same if the structure is modified before a break. *)
Theorem C110_modified_refuted : improve_for_loop (SFor (Name "i") (len_of "a") (popping "a") []) = Some UseForeach /\ forallb parsed (popping "a") = true /\
  leaves_apart (listing false true) (SFor (Name "i") (len_of "a") (popping "a") []) (SFor (Name "x") (Name "a") (map (direct_stmt "a" "i" "x") (popping "a")) []) "n" both.
Proof. exact modified_refuted. Qed.
Print Assumptions C110_modified_refuted.

(** C110: nor if it is modified under another name. *)
Theorem C110_alias_refuted : improve_for_loop (SFor (Name "i") (len_of "a") aliased []) = Some UseForeach /\ forallb parsed aliased = true /\
  leaves_apart (listing false true) (SFor (Name "i") (len_of "a") aliased []) (SFor (Name "x") (Name "a") (map (direct_stmt "a" "i" "x") aliased) []) "n" both.
Proof. exact alias_refuted. Qed.
Print Assumptions C110_alias_refuted.

(** C110: nor if it is a dictionary. *)
Theorem C110_dictionary_refuted : improve_for_loop (SFor (Name "i") (len_of "a") [SAug "n" Add elem] []) = Some UseForeach /\
  leaves_apart (listing true false) (SFor (Name "i") (len_of "a") [SAug "n" Add elem] []) (SFor (Name "x") (Name "a") (map (direct_stmt "a" "i" "x") [SAug "n" Add elem]) []) "n" both.
Proof. exact dictionary_refuted. Qed.
Print Assumptions C110_dictionary_refuted.

(** C110: the index may be used after the loop. *)
Theorem C110_index_after_refuted : improve_for_loop (SFor (Name "i") (len_of "a") [SAug "n" Add elem] []) = Some UseForeach /\
  leaves_apart calm (SFor (Name "i") (len_of "a") [SAug "n" Add elem] []) (SFor (Name "x") (Name "a") (map (direct_stmt "a" "i" "x") [SAug "n" Add elem]) []) "i" both.
Proof. exact index_after_refuted. Qed.
Print Assumptions C110_index_after_refuted.

(** C110: or in its else branch. *)
Theorem C110_else_refuted : improve_for_loop (SFor (Name "i") (len_of "a") [SAug "n" Add elem] [SAssign "m" (Name "i")]) = Some UseForeach /\
  exists w1 w2 e, exec calm (SFor (Name "i") (len_of "a") [SAug "n" Add elem] [SAssign "m" (Name "i")]) both w1 Normal /\
    exec calm (SFor (Name "x") (Name "a") (map (direct_stmt "a" "i" "x") [SAug "n" Add elem]) (map (direct_stmt "a" "i" "x") [SAssign "m" (Name "i")])) both w2 (Left (Raise e)).
Proof. exact index_in_else_refuted. Qed.
Print Assumptions C110_else_refuted.
