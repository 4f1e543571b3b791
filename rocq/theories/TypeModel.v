(** Sets of types and the guessing of types. Definitions only.
    edulint/linting/analyses/types.py, edulint/linting/analyses/utils.py:354-377. *)
From Coq Require Import String List Bool Arith NArith.
From Verif Require Import Base PyModel IfModel.
Import ListNotations.
Local Open Scope string_scope.
Local Open Scope list_scope.

(** [Type], edulint/linting/analyses/types.py:13-22. *)
Inductive ty := TInt | TFloat | TBool | TString | TList | TTuple | TDict | TSet | TModule.
(** [int(t)]; auto() counts from 1. edulint/linting/analyses/types.py:14-22, 31-32. *)
Definition ty_int (t : ty) : N :=
  match t with TInt => 1 | TFloat => 2 | TBool => 3 | TString => 4 | TList => 5 | TTuple => 6 | TDict => 7 | TSet => 8 | TModule => 9 end%N.
(** The types in the order of the enumeration, edulint/linting/analyses/types.py:14-22. *)
Definition all_types : list ty := [TInt; TFloat; TBool; TString; TList; TTuple; TDict; TSet; TModule].
(** [t in types], edulint/linting/analyses/types.py:80. *)
Definition ty_eqb (a b : ty) : bool := N.eqb (ty_int a) (ty_int b).

(** [Types], a bit vector, edulint/linting/analyses/types.py:43-52. *)
Definition types := N.
(** [Types(t)], edulint/linting/analyses/types.py:50-51. *)
Definition only (t : ty) : types := N.shiftl 1 (ty_int t).
(** [Types.empty()], edulint/linting/analyses/types.py:59-61. *)
Definition no_types : types := 0%N.
(** [__and__], edulint/linting/analyses/types.py:63-64. *)
Definition meet (a b : types) : types := N.land a b.
(** [__or__], edulint/linting/analyses/types.py:66-67. *)
Definition join (a b : types) : types := N.lor a b.
(** [int.bit_count] (external code), edulint/linting/analyses/types.py:72. *)
Fixpoint pos_bits (p : positive) : nat :=
  match p with xH => 1 | xO p => pos_bits p | xI p => S (pos_bits p) end.
(** [__len__], edulint/linting/analyses/types.py:69-72. *)
Definition types_len (a : types) : nat := match a with N0 => 0 | Npos p => pos_bits p end.
(** [has], edulint/linting/analyses/types.py:74-75. *)
Definition has (a : types) (t : ty) : bool := N.ltb 0 (N.land (N.shiftl 1 (ty_int t)) a).
(** [get], edulint/linting/analyses/types.py:82-87. *)
Definition types_get (a : types) : list ty := filter (has a) all_types.
(** [has_only], edulint/linting/analyses/types.py:77-80. *)
Definition has_only (a : types) (l : list ty) : bool := forallb (fun t => existsb (ty_eqb t) l) (types_get a).
(** [any_mutable], edulint/linting/analyses/types.py:89-90. *)
Definition any_mutable (a : types) : bool := existsb (has a) [TList; TSet; TDict].
(** [any_container], edulint/linting/analyses/types.py:92-93. *)
Definition any_container (a : types) : bool := existsb (has a) [TString; TList; TTuple; TSet; TDict].

(** Looking up a name in a table, edulint/linting/analyses/types.py:386. *)
Fixpoint table (l : list (string * types)) (x : string) : types :=
  match l with [] => no_types | (y, t) :: r => if String.eqb x y then t else table r x end.
(** [BUILTIN_TYPES], edulint/linting/analyses/types.py:99-128. *)
Definition builtin_types : string -> types :=
  table [("abs", only TInt); ("all", only TBool); ("any", only TBool); ("ascii", only TString); ("bin", only TString);
         ("bool", only TBool); ("callable", only TBool); ("chr", only TString); ("dict", only TDict); ("divmod", only TTuple);
         ("float", only TFloat); ("hex", only TString); ("input", only TString); ("int", only TInt); ("isinstance", only TBool);
         ("issubclass", only TBool); ("len", only TInt); ("list", only TList); ("oct", only TString); ("ord", only TInt);
         ("pow", join (only TInt) (only TFloat)); ("repr", only TString); ("round", only TInt); ("set", only TSet);
         ("sorted", only TList); ("str", only TString); ("sum", join (only TInt) (only TFloat)); ("tuple", only TTuple)].
(** [TYPE_METHOD_TYPES[Type.STRING]], edulint/linting/analyses/types.py:131-174. *)
Definition string_methods : string -> types :=
  table [("capitalize", only TString); ("casefold", only TString); ("center", only TString); ("count", only TInt);
         ("endswith", only TBool); ("expandtabs", only TString); ("find", only TInt); ("format", only TString);
         ("format_map", only TString); ("index", only TInt); ("isalnum", only TBool); ("isalpha", only TBool);
         ("isascii", only TBool); ("isdecimal", only TBool); ("isdigit", only TBool); ("isidentifier", only TBool);
         ("islower", only TBool); ("isnumeric", only TBool); ("isprintable", only TBool); ("isspace", only TBool);
         ("istitle", only TBool); ("isupper", only TBool); ("join", only TString); ("ljust", only TString);
         ("lower", only TString); ("lstrip", only TString); ("partition", only TList); ("replace", only TString);
         ("rfind", only TInt); ("rindex", only TInt); ("rjust", only TString); ("rpartition", only TList);
         ("rsplit", only TList); ("rstrip", only TString); ("split", only TList); ("splitline", only TList);
         ("startswith", only TBool); ("strip", only TString); ("swapcase", only TString); ("title", only TString);
         ("upper", only TString); ("zfill", only TString)].
(** [TYPE_METHOD_TYPES.get(expr_type, {})]: the other keys of the table are not members of [Type] but the functions that
    the metaclass returns for Types.LIST and so on, so only strings are found. edulint/linting/analyses/types.py:38-40, 130-213, 407. *)
Definition method_types (t : ty) (m : string) : types := match t with TString => string_methods m | _ => no_types end.
(** [MODULE_METHOD_TYPES], edulint/linting/analyses/types.py:215-224. *)
Definition module_methods (modname : string) : string -> types :=
  if String.eqb modname "math"
  then table [("trunc", only TInt); ("sqrt", only TFloat); ("cos", only TFloat); ("sin", only TFloat); ("radians", only TFloat); ("degrees", only TFloat)]
  else fun _ => no_types.

(** [get_range_params]; keyword arguments are left out. edulint/linting/analyses/utils.py:354-377. *)
Definition get_range_params (e : expr) : option (expr * expr * expr) :=
  match e with
  | Call f args =>
      if text_eqb (as_string f) [TName "range"]
      then match args with
           | [b] => Some (Const (CInt 0), b, Const (CInt 1))
           | [a; b] => Some (a, b, Const (CInt 1))
           | [a; b; s] => Some (a, b, s)
           | _ => None
           end
      else None
  | _ => None
  end.

(** What the data dependency analysis says: the definitions that reach a name. A definition is known by a number.
    Simplified: definitions are given per name, not per occurrence. edulint/linting/analyses/types.py:250-263, 387-396. *)
Inductive definition := DLoop (iter : expr) | DExpr (e : expr).
(** The analysis and the inference, edulint/linting/analyses/types.py:250-263, 382-409. *)
Record analysis := {
  defs : string -> list (nat * definition);
  is_builtin_name : string -> bool;
  imported_from : string -> option string;
  opaque_type : nat -> types
}.

(** A visitor's result and the definitions visited so far, edulint/linting/analyses/types.py:235-236. *)
Notation guess := (list nat * types)%type.
(** Visiting a number of nodes in turn and joining their types, edulint/linting/analyses/types.py:250-263. *)
Fixpoint visit_defs (visit : list nat -> expr -> res guess) (vis : list nat) (l : list (nat * definition)) (acc : types) : res guess :=
  match l with
  | [] => Ok (vis, acc)
  | (n, d) :: r =>
      if existsb (Nat.eqb n) vis then visit_defs visit vis r acc
      else
        match d with
        | DLoop iter =>
            visit_defs visit (n :: vis) r (match get_range_params iter with Some _ => join acc (only TInt) | None => acc end)
        | DExpr e => do g <- visit (n :: vis) e; visit_defs visit (fst g) r (join acc (snd g))
        end
  end.
(** [visit(left) | visit(right)], edulint/linting/analyses/types.py:315. *)
Definition both (visit : list nat -> expr -> res guess) (vis : list nat) (a b : expr) : res guess :=
  do x <- visit vis a; do y <- visit (fst x) b; Ok (fst y, join (snd x) (snd y)).
(** [visit_binop], edulint/linting/analyses/types.py:313-368. *)
Definition visit_binop (visit : list nat -> expr -> res guess) (vis : list nat) (o : binop) (a b : expr) : res guess :=
  match o with
  | Add => both visit vis a b
  | Sub =>
      do g <- both visit vis a b;
      Ok (fst g, if has (snd g) TSet then only TSet else if has (snd g) TFloat then only TFloat else if has (snd g) TInt then only TInt else no_types)
  | Mul => visit vis a
  | Div => Ok (vis, only TFloat)
  | FloorDiv => Ok (vis, only TInt)
  | Mod =>
      do g <- both visit vis a b;
      if has (snd g) TString then Ok (fst g, only TString)
      else do h <- both visit (fst g) a b; Ok (fst h, if has (snd h) TInt then only TInt else no_types)
  | Pow =>
      do g <- both visit vis a b;
      if has (snd g) TFloat then Ok (fst g, only TFloat)
      else do h <- both visit (fst g) a b; Ok (fst h, if has (snd h) TInt then only TInt else no_types)
  | BitAnd | BitOr | BitXor =>
      do x <- visit vis a;
      do y <- visit (fst x) b;
      Ok (fst y, if has (join (snd x) (snd y)) TSet then only TSet
                 else if has (meet (snd x) (snd y)) TBool then only TBool
                 else if has (join (snd x) (snd y)) TInt then only TInt
                 else no_types)
  | LShift | RShift => Ok (vis, only TInt)
  | MatMul => Ok (vis, no_types)
  end.
(** [visit_call] with a name, edulint/linting/analyses/types.py:382-396. *)
Definition visit_call_name (A : analysis) (x : string) : types :=
  if is_builtin_name A x then builtin_types x
  else match imported_from A x with Some m => module_methods m x | None => no_types end.
(** [visit_call] with a method; a text that is not a name is no module. edulint/linting/analyses/types.py:398-409. *)
Definition visit_call_method (t : types) (e : expr) (m : string) : types :=
  if Nat.eqb (types_len t) 1
  then match types_get t with
       | TModule :: _ => match e with Name x => module_methods x m | _ => no_types end
       | u :: _ => method_types u m
       | [] => no_types
       end
  else no_types.

(** [visit], edulint/linting/analyses/types.py:227-409; the fuel bounds the definitions entered. *)
Fixpoint visit_type (fuel : nat) (A : analysis) : list nat -> expr -> res guess :=
  match fuel with
  | 0 => fun _ _ => Raise (OtherError "out of fuel")
  | S fuel =>
      fix go (vis : list nat) (e : expr) {struct e} : res guess :=
        match e with
        | Const c =>
            Ok (vis, match c with CBool _ => only TBool | CFloat _ => only TFloat | CInt _ => only TInt | CStr _ => only TString | CNone => no_types end)
        | Name x => visit_defs (visit_type fuel A) vis (defs A x) no_types
        | Other n => Ok (vis, opaque_type A n)
        | Subscript _ _ | Attribute _ _ => Ok (vis, no_types)
        | Compare _ _ | BoolOp _ _ => Ok (vis, only TBool)
        | IfExp _ a b => both go vis a b
        | Binary o a b => visit_binop go vis o a b
        | Unary Neg a | Unary Pos a => go vis a
        | Unary Not _ => Ok (vis, only TBool)
        | Unary Inv _ => Ok (vis, only TInt)
        | Call (Name x) _ => Ok (vis, visit_call_name A x)
        | Call (Attribute e m) _ => do g <- go vis e; Ok (fst g, visit_call_method (snd g) e m)
        | Call _ _ => Ok (vis, no_types)
        end
  end.
(** [guess_type]; [n] is the number of the expression if it is a definition. edulint/linting/analyses/types.py:412-415. *)
Definition guess_type (fuel : nat) (A : analysis) (n : option nat) (e : expr) : res (option types) :=
  do g <- visit_type fuel A (match n with Some n => [n] | None => [] end) e;
  Ok (if Nat.ltb 0 (types_len (snd g)) then Some (snd g) else None).
