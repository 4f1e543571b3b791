(** Examples of anti-unification and of what it gets wrong. The tables are those of astroid 3. *)
From Coq Require Import String List Bool Arith ZArith QArith Lia.
From Verif Require Import Base AuModel AuSpec AuProofs AuTotalProofs.
Import ListNotations.
Local Open Scope string_scope.
Local Open Scope list_scope.
Local Open Scope nat_scope.

Definition a_fields (k : string) : list string :=
  if String.eqb k "Assign" then ["targets"; "value"]
  else if String.eqb k "AugAssign" then ["target"; "value"]
  else if String.eqb k "Expr" then ["value"]
  else if String.eqb k "Call" then ["func"; "args"; "keywords"]
  else if String.eqb k "BinOp" then ["left"; "right"]
  else if String.eqb k "JoinedStr" then ["values"]
  else if String.eqb k "FormattedValue" then ["value"; "format_spec"]
  else if String.eqb k "ClassDef" then ["decorators"; "bases"; "keywords"; "doc_node"; "body"]
  else if String.eqb k "Compare" then ["left"; "ops"]
  else [].
Definition a_shape (k a : string) : shape :=
  if str_in a ["targets"; "args"; "keywords"; "values"; "bases"; "body"] then Many One
  else if str_in a ["ops"; "names"] then Many (Pair One One) else One.
Definition a_class (k : string) : node_class :=
  if String.eqb k "Assign" then mk_class [] [] [("targets", true); ("value", false); ("type_annotation", false)]
  else if String.eqb k "AugAssign" then mk_class ["op"] ["op"] [("target", false); ("value", false)]
  else if String.eqb k "Expr" then mk_class [] [] [("value", false)]
  else if String.eqb k "Call" then mk_class [] [] [("func", false); ("args", true); ("keywords", true)]
  else if String.eqb k "BinOp" then mk_class ["op"] ["op"] [("left", false); ("right", false)]
  else if String.eqb k "JoinedStr" then mk_class [] [] [("values", true)]
  else if String.eqb k "FormattedValue" then mk_class [] [] [("value", false); ("conversion", false); ("format_spec", false)]
  else if String.eqb k "ClassDef" then
    mk_class ["name"] ["name"] [("bases", true); ("body", true); ("decorators", false); ("newstyle", false); ("metaclass", false); ("keywords", true); ("position", false); ("doc_node", false)]
  else if String.eqb k "Compare" then mk_class [] [] [("left", false); ("ops", true)]
  else if String.eqb k "ImportFrom" then mk_class ["modname"; "names"; "level"] ["modname"; "names"] []
  else if str_in k ["Name"; "AssignName"] then mk_class ["name"] ["name"] []
  else if String.eqb k "Const" then mk_class ["value"; "kind"] ["value"] []
  else mk_class [] [] [].
Definition a_used (k : string) : Prop :=
  List.In k ["ImportFrom"; "Assign"; "AugAssign"; "Expr"; "Call"; "BinOp"; "JoinedStr"; "FormattedValue"; "Compare"; "Name"; "AssignName"; "Const"].
Definition a_plain (a : atom) : Prop := match a with AComplex _ _ => False | _ => True end.

Lemma a_classes : classes a_fields String.eqb a_shape a_used.
Proof.
  constructor.
  - intros k _. apply String.eqb_refl.
  - intros k k' _ _ E. apply String.eqb_eq. exact E.
  - intros k _ [-> | ->]; reflexivity.
  - intros k a _. unfold a_shape. destruct (str_in a _); [exact Logic.I|]. destruct (str_in a _); exact Logic.I.
Qed.
Lemma a_once : forall k, NoDup (all_fields a_fields k).
Proof.
  intros k. unfold all_fields, a_fields, extra_fields.
  repeat match goal with
  | |- context [String.eqb k ?x] => destruct (String.eqb_spec k x) as [->|?]; [cbn; repeat constructor; cbn; intuition discriminate|]
  end.
  cbn [app]. repeat match goal with |- context [if ?b then _ else _] => destruct b end; repeat constructor; cbn; intuition discriminate.
Qed.
Lemma a_makable : makable a_fields a_class a_used.
Proof.
  intros k U. repeat (destruct U as [<-|U]); try destruct U; cbn; repeat split; intuition congruence.
Qed.
Lemma a_real : forall re im, ~ a_plain (AComplex re im).
Proof. intros re im H. exact H. Qed.

(** Pieces of programs. *)
Definition text (s : string) : val := VAtom (AStr s).
Definition none : val := VAtom ANone.
Definition name (s : string) : val := VNode "Name" [("name", text s)] None.
Definition target (s : string) : val := VNode "AssignName" [("name", text s)] None.
Definition const (a : atom) : val := VNode "Const" [("value", VAtom a)] None.
Definition assign (t : string) (v : val) : val := VNode "Assign" [("targets", VList [target t]); ("value", v)] None.
Definition call (f : string) (args : list val) : val := VNode "Expr" [("value", VNode "Call" [("func", name f); ("args", VList args); ("keywords", VList [])] None)] None.
Definition plus (u v : val) : val := VNode "BinOp" [("left", u); ("right", v); ("op", text "+")] None.
Definition formatted (conversion : Z) (v : val) : val :=
  VNode "JoinedStr" [("values", VList [VNode "FormattedValue" [("value", v); ("conversion", VAtom (AInt conversion)); ("format_spec", none)] None])] None.
Definition class_ (n : string) : val :=
  VNode "ClassDef" [("name", text n); ("decorators", none); ("bases", VList []); ("keywords", VList []); ("doc_node", none); ("body", VList [])] None.
Definition less (u v : val) : val := VNode "Compare" [("left", u); ("ops", VList [VTup [text "<"; v]])] None.

Notation a_well := (well (all_fields a_fields) a_shape a_used a_plain).
Notation a_alike := (alike (all_fields a_fields)).
Notation never := (fun (_ : val) (_ : list val) (_ : list avar) => false).
Notation always := (fun (_ : val) (_ : list val) (_ : list avar) => true).

Ltac find_attr := match goal with |- holds ?attrs ?a _ => apply holds_iff; reflexivity end.
Ltac well_tac :=
  repeat match goal with
  | |- well _ _ _ _ _ (VAtom _) => apply well_atom; exact Logic.I
  | |- well _ _ _ _ _ (VList _) => apply well_many
  | |- well _ _ _ _ _ (VTup _) => apply well_pair
  | |- Forall _ [] => constructor
  | |- Forall _ (_ :: _) => constructor
  | |- well _ _ _ _ _ (VNode _ _ _) =>
      apply well_node;
      [cbn; tauto
      |let a := fresh in let I := fresh in intros a I; cbn in I;
       repeat (destruct I as [<-|I]; [eexists; split; [find_attr|]|]); try destruct I
      |let N := fresh in intros N; first [eexists; split; [find_attr|exact Logic.I] | exfalso; destruct N; discriminate]]
  | |- well _ _ _ _ _ _ => cbv [a_shape str_in existsb String.eqb Ascii.eqb Bool.eqb orb]
  end.

(** [y = x + 1; print(y)] and [y = x + 2; print(y)] *)
Definition first_fragment : val := VList [assign "y" (plus (name "x") (const (AInt 1))); call "print" [name "y"]].
Definition second_fragment : val := VList [assign "y" (plus (name "x") (const (AInt 2))); call "print" [name "y"]].
Definition third_fragment : val := VList [assign "z" (plus (name "x") (const (AInt 2))); call "print" [name "z"]].
Lemma fragments_well : Forall (a_well (Many One)) [first_fragment; second_fragment; third_fragment].
Proof. unfold first_fragment, second_fragment, third_fragment, assign, call, plus, name, target, const, text. well_tac. Qed.

(** The branches [x = 1] and [x = True]. *)
Definition is_1 : val := VList [assign "x" (const (AInt 1))].
Definition is_true : val := VList [assign "x" (const (ABool true))].
Lemma ones_well : Forall (a_well (Many One)) [is_1; is_true].
Proof. unfold is_1, is_true, assign, target, const, text. well_tac. Qed.

Lemma holds_cons : forall a v l b w, holds ((a, v) :: l) b w -> (a = b /\ v = w) \/ (a <> b /\ holds l b w).
Proof.
  intros a v l b w H. apply holds_iff in H. cbn [attr_of] in H. destruct (String.eqb_spec b a) as [->|N].
  - left. split; congruence.
  - right. split; [congruence|]. apply holds_iff. exact H.
Qed.

Lemma not_same_ones : ~ a_alike (@eq atom) (@eq atom) is_1 is_true.
Proof.
  intros A. inversion A as [|us vs F|?|?|?]; subst. inversion F as [|? ? ? ? A1 _]; subst.
  inversion A1 as [|?|?|k u v s t a b N|k u v s t N H]; subst; [destruct N; discriminate|].
  destruct (H "value") as (x & y & Hx & Hy & A2); [right; left; reflexivity|].
  apply holds_iff in Hx, Hy. cbn in Hx, Hy. injection Hx as <-. injection Hy as <-.
  inversion A2 as [|?|?|k' u' v' s' t' a b N'|k' u' v' s' t' N' H']; subst; [destruct N'; discriminate|].
  destruct (H' "value") as (x & y & Hx & Hy & A3); [left; reflexivity|].
  apply holds_iff in Hx, Hy. cbn in Hx, Hy. injection Hx as <-. injection Hy as <-. inversion A3; subst. discriminate.
Qed.

(** The branches print an f-string with [!r], the other without. *)
Definition with_repr : val := VList [call "print" [formatted 114 (name "x")]].
Definition without_repr : val := VList [call "print" [formatted (-1) (name "x")]].
Lemma formatted_well : Forall (a_well (Many One)) [with_repr; without_repr].
Proof. unfold with_repr, without_repr, call, formatted, name, text, none. well_tac. Qed.

(** The branches [from . import x] and [from .. import x]. *)
Definition import_from (level : Z) (x : string) : val :=
  VNode "ImportFrom" [("modname", text ""); ("names", VList [VTup [text x; none]]); ("level", VAtom (AInt level))] None.
Definition from_here : val := VList [import_from 1 "x"].
Definition from_above : val := VList [import_from 2 "x"].
Lemma imports_well : Forall (a_well (Many One)) [from_here; from_above].
Proof. unfold from_here, from_above, import_from, text, none. well_tac. Qed.

(** A value of an attribute somewhere in a fragment. *)
Inductive inside : val -> val -> Prop :=
| inside_self : forall v, inside v v
| inside_list : forall w l v, List.In w l -> inside v w -> inside v (VList l)
| inside_attr : forall w k attrs s a v, List.In (a, w) attrs -> inside v w -> inside v (VNode k attrs s).

(** Names that are merged though another name is used in two ways: [f(a, a, d)] and [f(b, c, c)]. *)
Definition one_name : val := VList [call "f" [name "a"; name "a"; name "d"]].
Definition two_names : val := VList [call "f" [name "b"; name "c"; name "c"]].
Lemma names_well : Forall (a_well (Many One)) [one_name; two_names].
Proof. unfold one_name, two_names, call, name, text. well_tac. Qed.

Lemma not_filled_ones : forall core avars num, unify a_fields String.eqb a_class if_stop_on 20 [is_1; is_true] 0 = Ok (core, avars, num) ->
  ~ fills (all_fields a_fields) (@eq atom) (@eq atom) 1 core is_true.
Proof.
  intros core avars num E F. vm_compute in E. injection E as <- <- <-.
  inversion F as [|?|cs vs FF|?|c subs vs ST N|?|?]; subst; [|inversion ST].
  inversion FF as [|? ? ? ? F1 _]; subst.
  inversion F1 as [|?|?|?|?|k u v s t a b N|k u v s t H]; subst; [destruct N; discriminate|].
  destruct (H "value") as (x & y & Hx & Hy & A2); [right; left; reflexivity|].
  apply holds_iff in Hx, Hy. cbn in Hx, Hy. injection Hx as <-. injection Hy as <-.
  inversion A2 as [|?|?|?|?|k' u' v' s' t' a b N'|k' u' v' s' t' H']; subst; [destruct N'; discriminate|].
  destruct (H' "value") as (x & y & Hx & Hy & A3); [left; reflexivity|].
  apply holds_iff in Hx, Hy. cbn in Hx, Hy. injection Hx as <-. injection Hy as <-. inversion A3; subst. discriminate.
Qed.

(** Constants among which equal ones are the same. *)
Definition text_or_int (a : atom) : Prop := match a with AStr _ | AInt _ | ANone => True | _ => False end.
Lemma text_or_int_same : forall a b, text_or_int a -> text_or_int b -> atom_eq b a = true -> a = b.
Proof.
  intros [s|z|b|q|re im|s| | |s] [s'|z'|b'|q'|re' im'|s'| | |s'] P P' E; try destruct P; try destruct P'; try discriminate; try reflexivity.
  - apply String.eqb_eq in E. congruence.
  - unfold atom_eq, number in E. apply andb_true_iff in E. destruct E as (E & _). apply Qeq_bool_iff in E. unfold Qeq, inject_Z in E. cbn in E. f_equal. lia.
Qed.
Lemma fragments_simple : Forall (well (all_fields a_fields) a_shape a_used text_or_int (Many One)) [first_fragment; second_fragment; third_fragment].
Proof. unfold first_fragment, second_fragment, third_fragment, assign, call, plus, name, target, const, text. well_tac. Qed.

(** All places of the names of the first and of the third fragment. *)
Lemma place_y_z : name_place (all_fields a_fields) [first_fragment; third_fragment] ["y"; "z"].
Proof.
  apply (place_list _ 2 0 _ [assign "y" (plus (name "x") (const (AInt 1))); assign "z" (plus (name "x") (const (AInt 2)))]).
  { repeat constructor; eexists; repeat split. }
  apply (place_attr _ "Assign" "targets" _ [VList [target "y"]; VList [target "z"]]); [intros [E|E]; discriminate|left; reflexivity| |].
  { repeat constructor; eexists; (split; [reflexivity|find_attr]). }
  apply (place_list _ 1 0 _ [target "y"; target "z"]).
  { repeat constructor; eexists; repeat split. }
  apply (place_here _ "AssignName"); [right; reflexivity|]. repeat constructor; eexists; (split; [reflexivity|find_attr]).
Qed.
Lemma place_x_x : name_place (all_fields a_fields) [first_fragment; third_fragment] ["x"; "x"].
Proof.
  apply (place_list _ 2 0 _ [assign "y" (plus (name "x") (const (AInt 1))); assign "z" (plus (name "x") (const (AInt 2)))]).
  { repeat constructor; eexists; repeat split. }
  apply (place_attr _ "Assign" "value" _ [plus (name "x") (const (AInt 1)); plus (name "x") (const (AInt 2))]); [intros [E|E]; discriminate|right; left; reflexivity| |].
  { repeat constructor; eexists; (split; [reflexivity|find_attr]). }
  apply (place_attr _ "BinOp" "left" _ [name "x"; name "x"]); [intros [E|E]; discriminate|left; reflexivity| |].
  { repeat constructor; eexists; (split; [reflexivity|find_attr]). }
  apply (place_here _ "Name"); [left; reflexivity|]. repeat constructor; eexists; (split; [reflexivity|find_attr]).
Qed.

Lemma repr_inside : inside (VAtom (AInt 114)) with_repr.
Proof.
  unfold with_repr. apply (inside_list (call "print" [formatted 114 (name "x")])); [left; reflexivity|].
  eapply inside_attr; [left; reflexivity|]. eapply inside_attr; [right; left; reflexivity|].
  eapply inside_list; [left; reflexivity|]. eapply inside_attr; [left; reflexivity|].
  eapply inside_list; [left; reflexivity|]. eapply inside_attr; [right; left; reflexivity|]. apply inside_self.
Qed.
Fixpoint atoms (v : val) : list atom :=
  match v with
  | VAtom a => [a]
  | VList l => flat_map atoms l
  | VNode _ attrs _ => flat_map (fun '(_, v) => atoms v) attrs
  | _ => []
  end.
Lemma inside_atoms : forall a w v, inside w v -> w = VAtom a -> List.In a (atoms v).
Proof.
  intros a w v I E. induction I as [v|w l v Iw I IH|w k attrs s b v Iw I IH]; cbn [atoms].
  - subst v. left. reflexivity.
  - apply in_flat_map. exists w. split; [exact Iw|exact (IH E)].
  - apply in_flat_map. exists (b, w). split; [exact Iw|exact (IH E)].
Qed.
Lemma repr_outside : ~ inside (VAtom (AInt 114)) without_repr.
Proof.
  intros I. apply (inside_atoms (AInt 114)) in I; [|reflexivity]. vm_compute in I. intuition discriminate.
Qed.
Lemma level_inside : inside (VAtom (AInt 2)) from_above.
Proof.
  unfold from_above. eapply inside_list; [left; reflexivity|]. eapply inside_attr; [right; right; left; reflexivity|]. apply inside_self.
Qed.
Lemma level_outside : ~ inside (VAtom (AInt 2)) from_here.
Proof.
  intros I. apply (inside_atoms (AInt 2)) in I; [|reflexivity]. vm_compute in I. intuition discriminate.
Qed.

Lemma deciding_compared : forall astroid_fields same same_name k a uattrs vattrs s t,
  alike (all_fields astroid_fields) same same_name (VNode k uattrs s) (VNode k vattrs t) -> List.In (k, a) deciding -> ~ name_class k ->
  exists u v, holds uattrs a u /\ holds vattrs a v /\ alike (all_fields astroid_fields) same same_name u v.
Proof.
  intros af same sn k a ua va s t A I N. inversion A as [|?|?|k' u v s' t' x y N'|k' u v s' t' N' H]; subst; [contradiction|].
  apply H. unfold all_fields. apply in_or_app. right. clear - I.
  unfold deciding in I. repeat (destruct I as [I|I]; [injection I as <- <-; cbn; tauto|]). destruct I.
Qed.
