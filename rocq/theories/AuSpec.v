(** What anti-unification promises, said without the functions of the model: what it means to put the i-th values in the place of the
    variables of a core, and when two fragments are the same. *)
From Coq Require Import String List.
From Verif Require Import Base AuModel.
Import ListNotations.
Local Open Scope string_scope.
Local Open Scope list_scope.
Local Open Scope nat_scope.

(** The attribute [a] has the value [v]. *)
Definition holds (attrs : list (string * val)) (a : string) (v : val) : Prop :=
  exists before_ after_, attrs = before_ ++ (a, v) :: after_ /\ ~ List.In a (map fst before_).

(** Classes of nodes whose only content is a name. *)
Definition name_class (k : string) : Prop := k = "Name" \/ k = "AssignName".

(** The only element of a list, with a variable that stands for the whole list. *)
Inductive stands : val -> list val -> Prop :=
| stands_alone : forall n subs, stands (VVar n subs) subs
| stands_for_names : forall n subs, stands (VTup [VVar n subs; VAtom ANone]) subs
| stands_for_comparisons : forall n subs, stands (VTup [VAtom (AStr ""); VVar n subs]) subs
| stands_for_items : forall n m subs, stands (VTup [VVar n subs; VVar m []]) subs.

Section Fragments.
  (** The attributes of a class of nodes that count. *)
  Variable fields : string -> list string.
  (** When a plain value of a core is as good as one of a fragment. *)
  Variable same : atom -> atom -> Prop.
  (** When a name of a core is as good as one of a fragment. *)
  Variable same_name : atom -> atom -> Prop.

  (** [fills i core v]: with the i-th values in the place of its variables, the core becomes the fragment [v]. *)
  Inductive fills (i : nat) : val -> val -> Prop :=
  | fills_var : forall n subs v, nth_error subs i = Some v -> fills i (VVar n subs) v
  | fills_atom : forall a b, same a b -> fills i (VAtom a) (VAtom b)
  | fills_list : forall cs vs, Forall2 (fills i) cs vs -> fills i (VList cs) (VList vs)
  | fills_tuple : forall cs vs, Forall2 (fills i) cs vs -> fills i (VTup cs) (VTup vs)
  | fills_whole_list : forall c subs vs, stands c subs -> nth_error subs i = Some (VList vs) -> fills i (VList [c]) (VList vs)
  | fills_name : forall k cattrs vattrs s t a b,
      name_class k -> holds cattrs "name" (VAtom a) -> holds vattrs "name" (VAtom b) -> same_name a b ->
      fills i (VNode k cattrs s) (VNode k vattrs t)
  | fills_node : forall k cattrs vattrs s t,
      (forall a, List.In a (fields k) -> exists c v, holds cattrs a c /\ holds vattrs a v /\ fills i c v) ->
      fills i (VNode k cattrs s) (VNode k vattrs t).

  (** Two fragments are the same, up to [same] and [same_name]. *)
  Inductive alike : val -> val -> Prop :=
  | alike_atom : forall a b, same a b -> alike (VAtom a) (VAtom b)
  | alike_list : forall us vs, Forall2 alike us vs -> alike (VList us) (VList vs)
  | alike_tuple : forall us vs, Forall2 alike us vs -> alike (VTup us) (VTup vs)
  | alike_name : forall k uattrs vattrs s t a b,
      name_class k -> holds uattrs "name" (VAtom a) -> holds vattrs "name" (VAtom b) -> same_name a b ->
      alike (VNode k uattrs s) (VNode k vattrs t)
  | alike_node : forall k uattrs vattrs s t, ~ name_class k ->
      (forall a, List.In a (fields k) -> exists u v, holds uattrs a u /\ holds vattrs a v /\ alike u v) ->
      alike (VNode k uattrs s) (VNode k vattrs t).
End Fragments.

(** Classes of nodes with attributes that hold no nodes and that decide what the node does: names, attributes, operators, constants and
    what is imported. *)
Definition deciding : list (string * string) :=
  [("Name", "name"); ("AssignName", "name"); ("DelName", "name"); ("FunctionDef", "name");
   ("Attribute", "attrname"); ("AssignAttr", "attrname"); ("DelAttr", "attrname");
   ("BinOp", "op"); ("AugAssign", "op"); ("BoolOp", "op"); ("UnaryOp", "op");
   ("Const", "value"); ("MatchSingleton", "value"); ("Global", "names"); ("Nonlocal", "names"); ("Import", "names");
   ("ImportFrom", "modname"); ("ImportFrom", "names"); ("Keyword", "arg")].

(** What an attribute can hold: a node or a plain value, a list, a pair. *)
Inductive shape := One | Many (s : shape) | Pair (s t : shape).
(** Pairs occur only in lists and pairs. *)
Definition direct (s : shape) : Prop := match s with Pair _ _ => False | _ => True end.

Section Programs.
  Variable fields : string -> list string.
  (** What the attributes of a class of nodes hold. *)
  Variable shape_of : string -> string -> shape.
  (** The classes of nodes and the plain values that occur. *)
  Variable used : string -> Prop.
  Variable plain : atom -> Prop.

  (** A fragment of a program. *)
  Inductive well : shape -> val -> Prop :=
  | well_atom : forall a, plain a -> well One (VAtom a)
  | well_node : forall k attrs, used k ->
      (forall a, List.In a (fields k) -> exists v, holds attrs a v /\ well (shape_of k a) v) ->
      (name_class k -> exists s, holds attrs "name" (VAtom (AStr s)) /\ plain (AStr s)) ->
      well One (VNode k attrs None)
  | well_many : forall s l, Forall (well s) l -> well (Many s) (VList l)
  | well_pair : forall s t x y, well s x -> well t y -> well (Pair s t) (VTup [x; y]).
End Programs.

(** Classes of nodes that are made of exactly the attributes that are compared, and of which none is a special case of another. *)
Record classes (astroid_fields : string -> list string) (is_subclass : string -> string -> bool) (shape_of : string -> string -> shape)
  (used : string -> Prop) : Prop := mk_classes {
  reflexive : forall k, used k -> is_subclass k k = true;
  unrelated : forall k k', used k -> used k' -> is_subclass k k' = true -> k = k';
  name_fields : forall k, used k -> name_class k -> astroid_fields k = [];
  shapes_direct : forall k a, used k -> direct (shape_of k a) }.

(** The names [x] of the first fragment and [y] of the [i]-th one are the same, or some group of variables that stands for names has them
    at these places and may get one name, as far as the analysis of scopes can tell. *)
Definition interchangeable (scopes_allow : val -> list val -> list avar -> bool) (core : val) (i : nat) (x y : atom) : Prop :=
  atom_eq x y = true \/
  exists names group a, scopes_allow core names group = true /\ List.In a group /\
    nth_error (avar_subs a) 0 = Some (VAtom x) /\ nth_error (avar_subs a) i = Some (VAtom y).

(** A place at which all fragments have a name: its names in the fragments. *)
Inductive name_place (fields : string -> list string) : list val -> list string -> Prop :=
| place_here : forall k vs ns, name_class k ->
    Forall2 (fun v n => exists attrs, v = VNode k attrs None /\ holds attrs "name" (VAtom (AStr n))) vs ns -> name_place fields vs ns
| place_attr : forall k a vs ws ns, ~ name_class k -> List.In a (fields k) ->
    Forall2 (fun v w => exists attrs, v = VNode k attrs None /\ holds attrs a w) vs ws -> name_place fields ws ns -> name_place fields vs ns
| place_list : forall n j vs ws ns,
    Forall2 (fun v w => exists l, v = VList l /\ length l = n /\ nth_error l j = Some w) vs ws -> name_place fields ws ns -> name_place fields vs ns
| place_tuple : forall n j vs ws ns,
    Forall2 (fun v w => exists l, v = VTup l /\ length l = n /\ nth_error l j = Some w) vs ws -> name_place fields ws ns -> name_place fields vs ns.

(** Names of one fragment correspond to names of another one-to-one. *)
Definition one_to_one (places : list string -> Prop) : Prop :=
  forall ns ns' i j x y x' y', places ns -> places ns' ->
    nth_error ns i = Some x -> nth_error ns j = Some y -> nth_error ns' i = Some x' -> nth_error ns' j = Some y' ->
    (x = x' <-> y = y').

(** Classes of nodes that can be made of the attributes that are compared. *)
Definition makable (astroid_fields : string -> list string) (class_of : string -> node_class) (used : string -> Prop) : Prop :=
  forall k, used k ->
    let after_ := map fst (postinit_params (class_of k)) in
    let more := if String.eqb k "Arguments" then ["kwarg"; "vararg"] else [] in
    let given := all_fields astroid_fields k ++ more in
    (forall a, List.In a given -> ~ List.In a after_ -> List.In a (init_params (class_of k))) /\
    (forall a, List.In a more -> ~ List.In a after_) /\
    (forall a, List.In a (init_required (class_of k)) -> List.In a given /\ ~ List.In a after_).

(** A variable that stands for something: all lists, or no list at all. *)
Definition usable (v : val) : Prop :=
  exists n s subs, v = VVar n (s :: subs) /\
    ((forall t, List.In t (s :: subs) -> is_list t = true) \/ forall t, List.In t (s :: subs) -> is_seq t = false).

(** A function that decides whether to stop, and raises nothing. *)
Definition decides (stop_on : list val -> res bool) : Prop :=
  (forall avars, Forall usable avars -> exists b, stop_on avars = Ok b) /\
  ((forall n, exists b, stop_on [VVar n []] = Ok b) \/
   forall n us vs ws, List.In (VList us) ws -> List.In (VList vs) ws -> length us <> length vs -> (forall t, List.In t ws -> is_list t = true) ->
     stop_on [VVar n ws] = Ok true).
