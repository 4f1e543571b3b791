(** The properties of anti-unification. *)
From Coq Require Import String List Bool Arith ZArith QArith Lia.
From Verif Require Import Base AuModel AuSpec AuProofs AuMergeProofs AuResultProofs AuNameProofs AuWholeProofs AuTotalProofs AuExamples.
Import ListNotations.
Local Open Scope string_scope.
Local Open Scope list_scope.
Local Open Scope nat_scope.

(** C61: before variables are merged, the i-th values in the place of the variables of the core give back the i-th fragment: exactly, if
    equal constants are the same ([same] can then be equality), as far as attributes that are compared are concerned. *)
Theorem C61_unmerged_partial : forall astroid_fields is_subclass class_of stop_on shape_of used (plain : atom -> Prop),
  classes astroid_fields is_subclass shape_of used ->
  forall fuel s vs num core avars num' (same : atom -> atom -> Prop), direct s -> vs <> [] ->
  Forall (well (all_fields astroid_fields) shape_of used plain s) vs ->
  (forall a b, plain a -> plain b -> atom_eq b a = true -> same a b) ->
  unify astroid_fields is_subclass class_of stop_on fuel vs num = Ok (core, avars, num') ->
  forall i v, nth_error vs i = Some v -> fills (all_fields astroid_fields) same (fun _ _ => False) i core v.
Proof. exact unify_exact. Qed.
Example ex_unmerged : classes a_fields String.eqb a_shape a_used /\ direct (Many One) /\
  Forall (well (all_fields a_fields) a_shape a_used text_or_int (Many One)) [first_fragment; second_fragment; third_fragment] /\
  (forall a b, text_or_int a -> text_or_int b -> atom_eq b a = true -> a = b) /\
  exists core, unify a_fields String.eqb a_class (fun _ => Ok false) 20 [first_fragment; second_fragment; third_fragment] 0 =
    Ok (core, [VVar 1 [text "y"; text "y"; text "z"]; VVar 2 [text "x"; text "x"; text "x"]; VVar 3 [VAtom (AInt 1); VAtom (AInt 2); VAtom (AInt 2)];
               VVar 4 [text "print"; text "print"; text "print"]; VVar 5 [text "y"; text "y"; text "z"]], 5).
Proof.
  refine (conj a_classes (conj Logic.I (conj fragments_simple (conj text_or_int_same _)))). eexists. vm_compute. reflexivity.
Qed.

(** After variables are merged: up to [==] of constants, and up to names that may be interchanged as far as the analysis of scopes can tell. *)
Theorem C61_merged_partial : forall astroid_fields is_subclass class_of stop_on stop_after scopes_allow shape_of used plain,
  classes astroid_fields is_subclass shape_of used -> (forall k, NoDup (all_fields astroid_fields k)) ->
  forall fuel s vs consistent core avars, direct s -> vs <> [] -> Forall (well (all_fields astroid_fields) shape_of used plain s) vs ->
  antiunify astroid_fields is_subclass class_of stop_on stop_after scopes_allow fuel vs consistent = Ok (Some (core, avars)) ->
  exists core0 avars0 num, unify astroid_fields is_subclass class_of stop_on fuel vs 0 = Ok (core0, avars0, num) /\
    forall i v, nth_error vs i = Some v ->
      fills (all_fields astroid_fields) (fun a b => atom_eq a b = true) (interchangeable scopes_allow core0 i) i core v.
Proof. exact antiunify_fills. Qed.
Example ex_merged : (forall k, NoDup (all_fields a_fields k)) /\
  exists core, antiunify a_fields String.eqb a_class if_stop_on (fun _ _ => Ok false) always 20 [first_fragment; third_fragment] false =
    Ok (Some (core, [VVar 3 [VAtom (AInt 1); VAtom (AInt 2)]])).
Proof. refine (conj a_once _). eexists. vm_compute. reflexivity. Qed.

(** The constants 1 and True are taken for the same. *)
Theorem C61_constants_refuted : exists core avars num,
  unify a_fields String.eqb a_class if_stop_on 20 [is_1; is_true] 0 = Ok (core, avars, num) /\
  ~ fills (all_fields a_fields) (@eq atom) (@eq atom) 1 core is_true.
Proof.
  destruct (unify a_fields String.eqb a_class if_stop_on 20 [is_1; is_true] 0) as [[[core avars] num]|e] eqn:E; [|vm_compute in E; discriminate].
  exists core, avars, num. exact (conj eq_refl (not_filled_ones _ _ _ E)).
Qed.

(** The i-th variant of a core is the i-th fragment, for nodes and for lists of nodes of the same length; [M] are the merged variables. *)
Theorem C61_variant_partial : forall astroid_fields is_subclass class_of stop_on M fuel vs n num core avars num' i v,
  Forall (fun v => exists l, v = VList l /\ length l = n /\ Forall program_node l) vs ->
  unify astroid_fields is_subclass class_of stop_on fuel vs num = Ok (core, avars, num') ->
  nth_error vs i = Some v -> get_sub_variant (rename M core) i = Ok v.
Proof. exact lists_variant. Qed.
Example ex_variant : Forall (fun v => exists l, v = VList l /\ length l = 2 /\ Forall program_node l) [first_fragment; third_fragment] /\
  exists core avars num, unify a_fields String.eqb a_class if_stop_on 20 [first_fragment; third_fragment] 0 = Ok (core, avars, num) /\
    get_sub_variant core 1 = Ok third_fragment.
Proof.
  split.
  - repeat constructor; eexists; (split; [reflexivity|split; [reflexivity|]]); repeat constructor; do 2 eexists; reflexivity.
  - do 3 eexists. vm_compute. split; reflexivity.
Qed.
Theorem C61_node_variant_partial : forall astroid_fields is_subclass class_of stop_on M fuel vs num core avars num' i v,
  Forall program_node vs -> unify astroid_fields is_subclass class_of stop_on fuel vs num = Ok (core, avars, num') ->
  nth_error vs i = Some v -> get_sub_variant (rename M core) i = Ok v.
Proof.
  exact (fun astroid_fields is_subclass class_of stop_on M fuel vs num core avars num' i v F E N =>
    made_from_variant M core vs i v (nodes_made_from astroid_fields is_subclass class_of stop_on fuel vs num core avars num' F E) N).
Qed.
Example ex_node_variant : Forall program_node [name "x"; const (AInt 1)] /\
  exists core avars num, unify a_fields String.eqb a_class (fun _ => Ok false) 20 [name "x"; const (AInt 1)] 0 = Ok (core, avars, num) /\
    get_sub_variant core 1 = Ok (const (AInt 1)).
Proof. split; [repeat constructor; do 2 eexists; reflexivity|]. do 3 eexists. vm_compute. split; reflexivity. Qed.
(** For lists of different lengths the i-th variant is a list in a list. *)
Theorem C61_variant_refuted : exists u v core avars,
  antiunify a_fields String.eqb a_class (fun _ => Ok false) (fun _ _ => Ok false) never 20 [VList [u]; VList [u; v]] false = Ok (Some (core, avars)) /\
  get_sub_variant core 1 = Ok (VList [VList [u; v]]).
Proof. exists (call "f" []), (call "g" []). do 2 eexists. vm_compute. split; reflexivity. Qed.

(** C93: branches reported as identical are the same, up to [==] of constants, attributes that are not compared, and names that may be
    interchanged as far as the analysis of scopes can tell. *)
Theorem C93_alike_partial : forall astroid_fields is_subclass class_of scopes_allow shape_of used plain fuel s branches others v0,
  classes astroid_fields is_subclass shape_of used -> (forall k, NoDup (all_fields astroid_fields k)) -> direct s ->
  nth_error branches 0 = Some v0 -> Forall (well (all_fields astroid_fields) shape_of used plain s) branches ->
  reports_identical astroid_fields is_subclass class_of scopes_allow fuel branches others = Ok true ->
  exists core0 avars0 num, unify astroid_fields is_subclass class_of if_stop_on fuel branches 0 = Ok (core0, avars0, num) /\
    forall i v, nth_error branches i = Some v ->
      alike (all_fields astroid_fields) (fun a b => atom_eq a b = true) (interchangeable scopes_allow core0 i) v0 v.
Proof. exact identical_alike. Qed.
Example ex_identical : Forall (a_well (Many One)) [first_fragment; second_fragment; third_fragment] /\
  reports_identical a_fields String.eqb a_class never 20 [second_fragment; second_fragment] true = Ok true /\
  reports_identical a_fields String.eqb a_class always 20 [second_fragment; third_fragment] true = Ok true /\
  reports_identical a_fields String.eqb a_class never 20 [second_fragment; third_fragment] true = Ok false /\
  reports_identical a_fields String.eqb a_class always 20 [first_fragment; second_fragment] true = Ok false.
Proof. refine (conj fragments_well _). vm_compute. repeat split. Qed.
Theorem C93_constants_refuted : Forall (a_well (Many One)) [is_1; is_true] /\
  reports_identical a_fields String.eqb a_class never 20 [is_1; is_true] true = Ok true /\ ~ a_alike (@eq atom) (@eq atom) is_1 is_true.
Proof. refine (conj ones_well (conj _ not_same_ones)). vm_compute. reflexivity. Qed.
(** The conversion of an f-string is not compared: one branch prints [f"{x!r}"], the other one [f"{x}"]. *)
Theorem C93_conversion_refuted : Forall (a_well (Many One)) [with_repr; without_repr] /\
  reports_identical a_fields String.eqb a_class never 20 [with_repr; without_repr] true = Ok true /\
  inside (VAtom (AInt 114)) with_repr /\ ~ inside (VAtom (AInt 114)) without_repr.
Proof.
  refine (conj formatted_well (conj _ (conj _ _))).
  - vm_compute. reflexivity.
  - exact repr_inside.
  - exact repr_outside.
Qed.

(** The attributes that decide what a node does are compared, so nodes that are the same have the same operators, constants, ... *)
Theorem C93_compared_partial : forall astroid_fields same same_name k a uattrs vattrs s t,
  alike (all_fields astroid_fields) same same_name (VNode k uattrs s) (VNode k vattrs t) -> List.In (k, a) deciding -> ~ name_class k ->
  exists u v, holds uattrs a u /\ holds vattrs a v /\ alike (all_fields astroid_fields) same same_name u v.
Proof. exact deciding_compared. Qed.
Example ex_compared : List.In ("BinOp", "op") deciding /\ ~ name_class "BinOp" /\
  reports_identical a_fields String.eqb a_class never 20
    [VList [assign "y" (plus (name "x") (name "x"))]; VList [assign "y" (VNode "BinOp" [("left", name "x"); ("right", name "x"); ("op", text "-")] None)]]
    true = Ok false.
Proof. refine (conj _ (conj _ _)); [cbn; tauto|intros [E|E]; discriminate|vm_compute; reflexivity]. Qed.
(** How far up an import goes is not compared: [from . import x] and [from .. import x]. *)
Theorem C93_import_refuted : Forall (a_well (Many One)) [from_here; from_above] /\
  reports_identical a_fields String.eqb a_class never 20 [from_here; from_above] true = Ok true /\
  ~ inside (VAtom (AInt 2)) from_here /\ inside (VAtom (AInt 2)) from_above.
Proof.
  refine (conj imports_well (conj _ (conj level_outside level_inside))). vm_compute. reflexivity.
Qed.

(** C94: when consistent names are required, the names of any two fragments correspond one-to-one. *)
Theorem C94_one_to_one_partial : forall astroid_fields is_subclass class_of stop_on stop_after scopes_allow shape_of used plain,
  classes astroid_fields is_subclass shape_of used -> (forall k, NoDup (all_fields astroid_fields k)) ->
  forall fuel s vs core avars, vs <> [] -> Forall (well (all_fields astroid_fields) shape_of used plain s) vs ->
  antiunify astroid_fields is_subclass class_of stop_on stop_after scopes_allow fuel vs true = Ok (Some (core, avars)) ->
  one_to_one (name_place (all_fields astroid_fields) vs).
Proof. exact antiunify_one_to_one. Qed.
Example ex_one_to_one :
  (exists core avars, antiunify a_fields String.eqb a_class if_stop_on (fun _ _ => Ok false) always 20 [first_fragment; third_fragment] true = Ok (Some (core, avars))) /\
  name_place (all_fields a_fields) [first_fragment; third_fragment] ["y"; "z"] /\
  name_place (all_fields a_fields) [first_fragment; third_fragment] ["x"; "x"] /\
  antiunify a_fields String.eqb a_class if_stop_on (fun _ _ => Ok false) always 20 [one_name; two_names] true = Ok None.
Proof.
  refine (conj _ (conj place_y_z (conj place_x_x _))).
  - do 2 eexists. vm_compute. reflexivity.
  - vm_compute. reflexivity.
Qed.

(** C95: anti-unification raises nothing, if nodes can be made of the attributes that are compared, there are no complex numbers and the
    functions that stop it raise nothing; the recursion is at most as deep as the first fragment. *)
Theorem C95_total_partial : forall astroid_fields is_subclass class_of stop_on shape_of used plain,
  classes astroid_fields is_subclass shape_of used -> makable astroid_fields class_of used -> decides stop_on ->
  (forall re im, ~ plain (AComplex re im)) -> forall stop_after scopes_allow, (forall core avars, exists b, stop_after core avars = Ok b) ->
  forall fuel s v0 vs consistent, direct s -> depth v0 <= fuel -> Forall (well (all_fields astroid_fields) shape_of used plain s) (v0 :: vs) ->
  exists r, antiunify astroid_fields is_subclass class_of stop_on stop_after scopes_allow fuel (v0 :: vs) consistent = Ok r.
Proof. exact antiunify_total. Qed.
Theorem C95_identical_partial : forall astroid_fields is_subclass class_of scopes_allow shape_of used plain fuel s v0 branches others,
  classes astroid_fields is_subclass shape_of used -> makable astroid_fields class_of used ->
  (forall re im, ~ plain (AComplex re im)) -> direct s -> depth v0 <= fuel ->
  Forall (well (all_fields astroid_fields) shape_of used plain s) (v0 :: branches) ->
  exists b, reports_identical astroid_fields is_subclass class_of scopes_allow fuel (v0 :: branches) others = Ok b.
Proof. exact identical_decided. Qed.
Example ex_total : makable a_fields a_class a_used /\ decides if_stop_on /\ (forall re im, ~ a_plain (AComplex re im)) /\ depth first_fragment <= 20.
Proof. refine (conj a_makable (conj if_stop_on_decides (conj a_real _))). vm_compute. lia. Qed.
(** Two classes in the same place raise TypeError: the name of a class is not among the attributes. *)
Theorem C95_class_refuted : forall scopes_allow others,
  reports_identical a_fields String.eqb a_class scopes_allow 20 [VList [class_ "A"]; VList [class_ "A"]] others = Raise TypeError.
Proof. intros scopes_allow others. reflexivity. Qed.
(** A complex number that both fragments have raises AssertionError. *)
Theorem C95_complex_refuted : forall scopes_allow others,
  reports_identical a_fields String.eqb a_class scopes_allow 20 [VList [assign "x" (const (AComplex 0 1))]; VList [assign "x" (const (AComplex 0 1))]] others =
    Raise AssertionError.
Proof. intros scopes_allow others. reflexivity. Qed.

Print Assumptions C61_unmerged_partial.
Print Assumptions C61_merged_partial.
Print Assumptions C61_constants_refuted.
Print Assumptions C61_variant_partial.
Print Assumptions C61_node_variant_partial.
Print Assumptions C61_variant_refuted.
Print Assumptions C93_alike_partial.
Print Assumptions C93_constants_refuted.
Print Assumptions C93_conversion_refuted.
Print Assumptions C93_compared_partial.
Print Assumptions C93_import_refuted.
Print Assumptions C94_one_to_one_partial.
Print Assumptions C95_total_partial.
Print Assumptions C95_identical_partial.
Print Assumptions C95_class_refuted.
Print Assumptions C95_complex_refuted.
