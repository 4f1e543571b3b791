(** Model of the suggestions to write repeated code as a loop: edulint/linting/checkers/duplication/duplicate_sequence.py and the splitting of
    a block into repetitions, edulint/linting/checkers/duplication/utils.py:80-88. Anti-unification itself is modelled in AuModel; here its
    variables are given: where they stand and what they stand for. The expressions in which the loop variable would be used ([use] in the
    code) appear in no message; only the start of a sequence of characters is kept of them. Definitions only. *)
From Coq Require Import String Ascii List Bool Arith NArith ZArith.
From Verif Require Import Base PyModel PySpec IfModel FoldModel TypeModel.
Import ListNotations.
Local Open Scope string_scope.
Local Open Scope list_scope.
Local Open Scope nat_scope.

(** ** Repetitions in a block *)

(** [[block[i : i + subblock_len] for i in range(0, end, subblock_len)]], edulint/linting/checkers/duplication/utils.py:87. *)
Definition subblocks {A} (block : list A) (stop len : nat) : list (list A) :=
  map (fun k => firstn len (skipn (k * len) block)) (seq 0 (stop / len)).
(** The repetitions that end at one place, edulint/linting/checkers/duplication/utils.py:84-88. *)
Definition repetitions_to {A} (block : list A) (stop : nat) : list (nat * list (list A)) :=
  flat_map (fun len => if stop mod len =? 0 then [((stop / len) * len, subblocks block stop len)] else []) (seq 1 (stop / 2)).
(** [get_loop_repetitions], edulint/linting/checkers/duplication/utils.py:80-88. *)
Definition get_loop_repetitions {A} (block : list A) : list (nat * list (list A)) :=
  flat_map (repetitions_to block) (rev (seq 1 (length block))).

(** ** Variables *)

(** What a variable stands for in one of the fragments: the value of an attribute or a node,
    edulint/linting/checkers/duplication/duplicate_sequence.py:238. *)
Inductive sub := Raw (v : value) | Node (e : expr).
(** The node a variable belongs to, [avar.parent]: a constant, a name or another one,
    edulint/linting/checkers/duplication/duplicate_sequence.py:104, edulint/linting/checkers/duplication/utils.py:95. *)
Inductive place := InConst | InName | InOther.
(** A variable, edulint/linting/checkers/duplication/duplicate_sequence.py:237-238. *)
Record avar := mk_avar { parent : place; subs : list sub }.

(** [v == w]; a float is equal only to the same float (simplified),
    edulint/linting/checkers/duplication/duplicate_sequence.py:257. *)
Definition value_eqb (v w : value) : bool :=
  match as_int v, as_int w with
  | Some a, Some b => Z.eqb a b
  | None, None =>
      match v, w with
      | VNone, VNone => true
      | VFloat a, VFloat b => String.eqb a b
      | VStr a, VStr b => String.eqb a b
      | VObj a, VObj b => a =? b
      | _, _ => false
      end
  | _, _ => false
  end.
(** Types of values and of nodes, edulint/linting/checkers/duplication/duplicate_sequence.py:81, 132. *)
Inductive kind :=
| KNone | KBool | KInt | KFloat | KStr | KObj
| KName | KConst | KUnary | KBinary | KBoolOp | KCompare | KCall | KAttribute | KSubscript | KIfExp | KOther.
(** Equality of types, edulint/linting/checkers/duplication/duplicate_sequence.py:134. *)
Definition kind_eqb (a b : kind) : bool := if (ltac:(decide equality) : {a = b} + {a <> b}) then true else false.
(** [type(p[0])]; nodes that are opaque in the model count as one type. edulint/linting/checkers/duplication/duplicate_sequence.py:132. *)
Definition kind_of (s : sub) : kind :=
  match s with
  | Raw VNone => KNone | Raw (VBool _) => KBool | Raw (VInt _) => KInt | Raw (VFloat _) => KFloat | Raw (VStr _) => KStr | Raw (VObj _) => KObj
  | Node (Name _) => KName | Node (Const _) => KConst | Node (Unary _ _) => KUnary | Node (Binary _ _ _) => KBinary
  | Node (BoolOp _ _) => KBoolOp | Node (Compare _ _) => KCompare | Node (Call _ _) => KCall | Node (Attribute _ _) => KAttribute
  | Node (Subscript _ _) => KSubscript | Node (IfExp _ _ _) => KIfExp | Node (Other _) => KOther
  end.
(** [isinstance(n, type(m))]; a bool is an int. edulint/linting/checkers/duplication/duplicate_sequence.py:81. *)
Definition instance_of (n m : sub) : bool :=
  kind_eqb (kind_of n) (kind_of m) || (kind_eqb (kind_of n) KBool && kind_eqb (kind_of m) KInt).

(** ** Ranges *)

(** Start, stop and step; only the start may be a bool. edulint/linting/checkers/duplication/duplicate_sequence.py:54. *)
Notation range_args := (value * Z * Z)%type.
(** [isinstance(s, int)], edulint/linting/checkers/duplication/duplicate_sequence.py:42. *)
Definition int_of (s : sub) : option Z := match s with Raw v => as_int v | Node _ => None end.
(** The loop of [to_range_args] once the start is known, with [step] and [previous], edulint/linting/checkers/duplication/duplicate_sequence.py:41-52. *)
Fixpoint range_loop (start previous : Z) (step : option Z) (l : list sub) : option (Z * option Z) :=
  match l with
  | [] => Some (previous, step)
  | s :: l =>
      match int_of s, step with
      | None, _ => None
      | Some z, None => range_loop start z (Some (z - start)%Z) l
      | Some z, Some d => if Z.eqb (z - previous) d then range_loop start z (Some d) l else None
      end
  end.
(** [to_range_args], edulint/linting/checkers/duplication/duplicate_sequence.py:37-54. *)
Definition to_range_args (l : list sub) : res (option range_args) :=
  match l with
  | [] => Raise TypeError
  | Raw v :: r =>
      match as_int v with
      | None => Ok None
      | Some a =>
          match range_loop a a None r with
          | None => Ok None
          | Some (_, None) => Raise TypeError
          | Some (previous, Some d) => Ok (Some (v, (previous + (if Z.ltb 0 d then 1 else -1))%Z, d))
          end
      end
  | Node _ :: _ => Ok None
  end.
(** [new_node(nodes.Const, value=z)] for an integer; a negative one is written with a minus sign,
    edulint/linting/checkers/duplication/duplicate_sequence.py:61-63. *)
Definition int_node (z : Z) : expr := if Z.ltb z 0 then Unary Neg (Const (CInt (Z.abs_N z))) else Const (CInt (Z.abs_N z)).
(** [new_node(nodes.Const, value=v)], edulint/linting/checkers/duplication/utils.py:97. *)
Definition const_node (v : value) : expr :=
  match v with
  | VNone => Const CNone | VBool b => Const (CBool b) | VInt z => int_node z | VFloat r => Const (CFloat r) | VStr s => Const (CStr s)
  | VObj n => Other n
  end.
(** [to_range_node], edulint/linting/checkers/duplication/duplicate_sequence.py:57-70. *)
Definition to_range_node (r : range_args) : expr :=
  let '(start, stop, step) := r in
  Call (Name "range")
    (if negb (Z.eqb step 1) then [const_node start; int_node stop; int_node step]
     else if negb (value_eqb start (VInt 0)) then [const_node start; int_node stop]
     else [int_node stop]).

(** ** Characters *)

(** [isinstance(s, str) and len(s) == 1] for all [s], edulint/linting/checkers/duplication/duplicate_sequence.py:107. *)
Fixpoint chars_of (l : list sub) : option (list ascii) :=
  match l with
  | [] => Some []
  | Raw (VStr (String c EmptyString)) :: l => match chars_of l with Some cs => Some (c :: cs) | None => None end
  | _ => None
  end.
(** [ord], edulint/linting/checkers/duplication/duplicate_sequence.py:112. *)
Definition ord (c : ascii) : Z := Z.of_nat (nat_of_ascii c).
(** [min(sequence)], edulint/linting/checkers/duplication/duplicate_sequence.py:110. *)
Fixpoint min_char (c : ascii) (cs : list ascii) : ascii :=
  match cs with [] => c | d :: cs => min_char (if Z.ltb (ord d) (ord c) then d else c) cs end.
(** [from_chars]: the offsets, and the character they are counted from unless it is the first one of all,
    edulint/linting/checkers/duplication/duplicate_sequence.py:103-128. *)
Definition from_chars (p : place) (l : list sub) : res (option (list sub * option ascii)) :=
  match p with
  | InConst =>
      match chars_of l with
      | None => Ok None
      | Some [] => Raise ValueError
      | Some (c :: cs) =>
          let m := min_char c cs in
          Ok (Some (map (fun d => Raw (VInt (ord d - ord m))) (c :: cs), if Z.eqb (ord m) 0 then None else Some m))
      end
  | _ => Ok None
  end.

(** ** Sequences of different kinds of expressions *)

(** The loop of [partition_by_type]; the current group is not empty, its last element is [m] and the others are in reverse order,
    edulint/linting/checkers/duplication/duplicate_sequence.py:80-88. *)
Fixpoint partition_loop (m : sub) (current : list sub) (l : list sub) : list (list sub) :=
  match l with
  | [] => [rev (m :: current)]
  | n :: l => if instance_of n m then partition_loop n (m :: current) l else rev (m :: current) :: partition_loop n [] l
  end.
(** [partition_by_type], edulint/linting/checkers/duplication/duplicate_sequence.py:76-90. *)
Definition partition_by_type (l : list sub) : list (list sub) := match l with [] => [] | n :: l => partition_loop n [] l end.

(** Equality of the values of constants, as anti-unification sees it, edulint/linting/checkers/duplication/duplicate_sequence.py:171. *)
Definition const_eqb (a b : const) : bool := value_eqb (const_value a) (const_value b).
(** The values of constants, if all expressions are constants, edulint/linting/checkers/duplication/duplicate_sequence.py:171. *)
Fixpoint all_consts (l : list expr) : option (list const) :=
  match l with
  | [] => Some []
  | Const c :: l => match all_consts l with Some r => Some (c :: r) | None => None end
  | _ => None
  end.
(** The names, if all expressions are names, edulint/linting/checkers/duplication/duplicate_sequence.py:171. *)
Fixpoint all_names (l : list expr) : option (list string) :=
  match l with
  | [] => Some []
  | Name x :: l => match all_names l with Some r => Some (x :: r) | None => None end
  | _ => None
  end.
(** Operators and operands, if all expressions are binary operations, edulint/linting/checkers/duplication/duplicate_sequence.py:171. *)
Fixpoint all_binaries (l : list expr) : option (list (binop * expr * expr)) :=
  match l with
  | [] => Some []
  | Binary o a b :: l => match all_binaries l with Some r => Some ((o, a, b) :: r) | None => None end
  | _ => None
  end.
(** A variable found while anti-unifying operations, and whether [called_aunify_var] rejects it,
    edulint/linting/checkers/duplication/duplicate_sequence.py:171-176. *)
Notation found := (bool * list sub)%type.
(** The place of a variable in a core; no program has a name like this one, edulint/linting/checkers/duplication/duplicate_sequence.py:171-176. *)
Definition hole : expr := Name "@".
(** [antiunify] of expressions: the core and the variables. Operands other than constants, names and binary operations are compared as a
    whole (simplified), edulint/linting/checkers/duplication/duplicate_sequence.py:171. *)
Fixpoint aunify (e : expr) (es : list expr) : expr * list found :=
  if forallb (fun e' => text_eqb (as_string e) (as_string e')) es then (e, [])
  else
    let whole := (hole, [(false, map Node (e :: es))]) in
    match e with
    | Const c =>
        match all_consts es with
        | Some cs => if forallb (const_eqb c) cs then (e, []) else (Const (CStr "@"), [(false, map (fun c => Raw (const_value c)) (c :: cs))])
        | None => whole
        end
    | Name x =>
        match all_names es with
        | Some xs => (hole, [(false, map (fun x => Raw (VStr x)) (x :: xs))])
        | None => whole
        end
    | Binary o a b =>
        match all_binaries es with
        | Some bs =>
            let (a', va) := aunify a (map (fun q => snd (fst q)) bs) in
            let (b', vb) := aunify b (map snd bs) in
            (Binary o a' b',
             va ++ vb ++ (if forallb (fun q => binop_eqb o (fst (fst q))) bs then [] else [(true, [])]))
        | None => whole
        end
    | _ => whole
    end.

(** [type_groups[t]], edulint/linting/checkers/duplication/duplicate_sequence.py:142-144. *)
Definition group_of (k : kind) (partition : list (list sub)) : list sub :=
  concat (filter (fun p => match p with s :: _ => kind_eqb (kind_of s) k | [] => false end) partition).
(** [type(p[0])] of all groups, edulint/linting/checkers/duplication/duplicate_sequence.py:132. *)
Definition types_of (partition : list (list sub)) : list kind :=
  flat_map (fun p => match p with s :: _ => [kind_of s] | [] => [] end) partition.
(** [len(types) != len(set(types))], edulint/linting/checkers/duplication/duplicate_sequence.py:134. *)
Fixpoint repeats (ts : list kind) : bool := match ts with [] => false | t :: ts => existsb (kind_eqb t) ts || repeats ts end.
(** Names, subscripts and attributes, edulint/linting/checkers/duplication/duplicate_sequence.py:137. *)
Definition exclusive_kind (k : kind) : bool := match k with KName | KSubscript | KAttribute => true | _ => false end.
(** The patterns of types that are accepted, edulint/linting/checkers/duplication/duplicate_sequence.py:160-168. *)
Fixpoint kinds_eqb (a b : list kind) : bool :=
  match a, b with [], [] => true | x :: a, y :: b => kind_eqb x y && kinds_eqb a b | _, _ => false end.
(** The test on one list of types, edulint/linting/checkers/duplication/duplicate_sequence.py:160-168. *)
Definition nice_types (exclusive : option kind) (ts : list kind) : bool :=
  match exclusive with
  | Some k => kinds_eqb ts [KConst; k; KBinary] || kinds_eqb ts [k; KBinary]
  | None => false
  end || kinds_eqb ts [KConst; KBinary].
(** The nodes among the values, edulint/linting/checkers/duplication/duplicate_sequence.py:171. *)
Definition nodes_of (l : list sub) : list expr := flat_map (fun s => match s with Node e => [e] | Raw _ => [] end) l.
(** Whether a value has the same text as an operand of the core, edulint/linting/checkers/duplication/duplicate_sequence.py:184-193. *)
Definition same_text (e : expr) (s : sub) : bool := match s with Node e' => text_eqb (as_string e) (as_string e') | Raw _ => false end.
(** [exclusive_nums], edulint/linting/checkers/duplication/duplicate_sequence.py:201-214. *)
Definition exclusive_nums (o : binop) (left_is_value : bool) : list sub :=
  match o with
  | Add => [Raw (VInt 0)]
  | Sub => if left_is_value then [Raw (VInt 0)] else []
  | Mul => [Raw (VInt 1)]
  | Div | FloorDiv | Mod => if left_is_value then [Raw (VInt 1)] else []
  | _ => []
  end.

(** [iter_use_from_partition], without the expression it also returns. [fuel] bounds the nesting of operations.
    edulint/linting/checkers/duplication/duplicate_sequence.py:131-234. *)
Fixpoint nums_from_partition (fuel : nat) (partition : list (list sub)) : res (option (list sub)) :=
  match fuel with
  | 0 => Raise RecursionError
  | S fuel =>
      let types := types_of partition in
      if repeats types then Ok None
      else
        let exclusive := filter exclusive_kind types in
        if 1 <? length exclusive then Ok None
        else
          let consts := group_of KConst partition in
          let binops := nodes_of (group_of KBinary partition) in
          if (1 <? length consts) || (length binops =? 0) then Ok None
          else
            let exclusive_type := hd_error exclusive in
            let exclusive_group := match exclusive_type with Some k => group_of k partition | None => [] end in
            if 1 <? length exclusive_group then Ok None
            else
              let exclusive_value := hd_error exclusive_group in
              if negb (nice_types exclusive_type types || nice_types exclusive_type (rev types)) then Ok None
              else
                match binops with
                | [] => Raise IndexError
                | e :: es =>
                    match aunify e es with
                    | (Binary o lt rt, [(false, avar_subs)]) =>
                        let related :=
                          match exclusive_value, hd_error consts with
                          | Some v, _ => same_text rt v || same_text lt v
                          | None, Some c => same_text rt c || same_text lt c
                          | None, None => true
                          end in
                        if negb related then Ok None
                        else
                          let const_nums := match consts with [] => [] | _ => [Raw (VInt 0)] end in
                          let excl_nums := match exclusive_value with Some v => exclusive_nums o (same_text lt v) | None => [] end in
                          do binop_nums <-
                            match avar_subs with
                            | Node _ :: _ => nums_from_partition fuel (partition_by_type avar_subs)
                            | _ => Ok (Some avar_subs)
                            end;
                          match binop_nums with
                          | None => Ok None
                          | Some binop_nums =>
                              Ok (Some (flat_map (fun t => match t with KConst => const_nums | KBinary => binop_nums | _ => excl_nums end) types))
                          end
                    | (Binary _ _ _, _) => Ok None
                    | _ => Raise AssertionError
                    end
                end
  end.

(** ** Iterables *)

Section Iter.
  Variable H : host.

  (** [to_const_sequence], edulint/linting/checkers/duplication/duplicate_sequence.py:93-100. *)
  Fixpoint to_const_sequence (l : list sub) : res (option (list sub)) :=
    match l with
    | [] => Ok (Some [])
    | s :: l =>
        do c <- match s with Raw v => Ok v | Node e => get_const_value H e end;
        match c with
        | VNone => Ok None
        | c => do r <- to_const_sequence l; Ok (match r with Some r => Some (Raw c :: r) | None => None end)
        end
    end.

  (** What a variable is to be iterated over, edulint/linting/checkers/duplication/duplicate_sequence.py:251, 259, 268. *)
  Inductive iter := IRange (r : range_args) | ISeq (l : list sub).
  (** The nesting of an expression, for the bound, edulint/linting/checkers/duplication/duplicate_sequence.py:217. *)
  Fixpoint depth (e : expr) : nat := match e with Binary _ a b => S (Nat.max (depth a) (depth b)) | _ => 1 end.
  (** The nesting of a list of values, edulint/linting/checkers/duplication/duplicate_sequence.py:217. *)
  Definition depths (l : list sub) : nat := fold_right (fun s n => Nat.max (match s with Node e => depth e | Raw _ => 1 end) n) 1 l.
  (** [len(sequence) != len(set(sequence))], edulint/linting/checkers/duplication/duplicate_sequence.py:257. *)
  Fixpoint repeats_value (l : list sub) : bool :=
    match l with
    | [] => false
    | s :: l => existsb (fun t => match s, t with Raw v, Raw w => value_eqb v w | _, _ => false end) l || repeats_value l
    end.

  (** [to_iter_use], edulint/linting/checkers/duplication/duplicate_sequence.py:237-268. *)
  Definition to_iter_use (a : avar) : res (option (iter * option ascii)) :=
    do consts <- to_const_sequence (subs a);
    let sequence := match consts with Some l => l | None => subs a end in
    do chars <- from_chars (parent a) sequence;
    let (sequence, start) := match chars with Some r => r | None => (sequence, None) end in
    do range <- to_range_args sequence;
    match range with
    | Some r => Ok (Some (IRange r, start))
    | None =>
        let partition := partition_by_type sequence in
        if length partition =? 1 then
          if existsb (fun s => match s with Node _ => true | Raw _ => false end) sequence then Raise AssertionError
          else if repeats_value sequence then Ok None
          else Ok (Some (ISeq sequence, start))
        else
          do nums <- nums_from_partition (S (depths sequence)) partition;
          match nums with
          | None => Ok None
          | Some nums =>
              do range <- to_range_args nums;
              Ok (match range with Some r => Some (IRange r, None) | None => None end)
          end
    end.

  (** Raised when there is no use in looking further, edulint/linting/checkers/duplication/duplicate_sequence.py:30-31. *)
  Definition NoSubseqToLoop : exn := OtherError "NoSubseqToLoop".

  (** [consolidate_ranges], without the uses: the numbers of the last range decide,
      edulint/linting/checkers/duplication/duplicate_sequence.py:271-285. *)
  Definition consolidate_ranges (ranges : list range_args) : res expr :=
    match ranges with
    | [] => Raise (OtherError "UnboundLocalError")
    | [r] => Ok (to_range_node r)
    | r :: _ =>
        let '(start, stop, step) := last ranges r in
        match as_int start with
        | None => Raise TypeError
        | Some start => if Z.eqb step 0 then Raise ZeroDivisionError else Ok (to_range_node (VInt 0, ((stop - start - 1) / step + 1)%Z, 1%Z))
        end
    end.

  (** Equality of ranges, edulint/linting/checkers/duplication/duplicate_sequence.py:328. *)
  Definition range_eqb (r q : range_args) : bool :=
    value_eqb (fst (fst r)) (fst (fst q)) && Z.eqb (snd (fst r)) (snd (fst q)) && Z.eqb (snd r) (snd q).
  (** [{r[0] for r in ranges}], edulint/linting/checkers/duplication/duplicate_sequence.py:328. *)
  Fixpoint distinct (l : list range_args) : list range_args :=
    match l with [] => [] | r :: l => if existsb (range_eqb r) l then distinct l else r :: distinct l end.

  (** [to_node], edulint/linting/checkers/duplication/utils.py:91-97. *)
  Definition to_node (p : place) (s : sub) : expr :=
    match s with
    | Node e => e
    | Raw v => match p, v with InName, VStr x => Name x | _, _ => const_node v end
    end.
  (** [tuple(to_node(n, avars[i]).as_string() for n in iter)], edulint/linting/checkers/duplication/duplicate_sequence.py:315. *)
  Definition texts (p : place) (l : list sub) : list text := map (fun s => as_string (to_node p s)) l.
  (** Equality of lists of texts, edulint/linting/checkers/duplication/duplicate_sequence.py:318. *)
  Fixpoint texts_eqb (a b : list text) : bool :=
    match a, b with [], [] => true | x :: a, y :: b => text_eqb x y && texts_eqb a b | _, _ => false end.
  (** [chr(ord(start) + v)], edulint/linting/checkers/duplication/duplicate_sequence.py:323. *)
  Definition shift (start : ascii) (s : sub) : sub :=
    match s with
    | Raw (VInt z) => Raw (VStr (String (ascii_of_nat (Z.to_nat (ord start + z))) EmptyString))
    | s => s
    end.

  (** What the message names: a call of [range] or a list, edulint/linting/checkers/duplication/duplicate_sequence.py:325, 397-401. *)
  Inductive iterable := RangeCall (e : expr) | ListDisplay (elts : list expr).

  (** The results of [to_iter_use] for all variables, edulint/linting/checkers/duplication/duplicate_sequence.py:298-304. *)
  Fixpoint iter_uses (avars : list avar) : res (option (list (place * iter * option ascii))) :=
    match avars with
    | [] => Ok (Some [])
    | a :: avars =>
        do u <- to_iter_use a;
        match u with
        | None => Ok None
        | Some (i, c) => do r <- iter_uses avars; Ok (match r with Some r => Some ((parent a, i, c) :: r) | None => None end)
        end
    end.
  (** [ranges], edulint/linting/checkers/duplication/duplicate_sequence.py:306. *)
  Definition ranges_of (us : list (place * iter * option ascii)) : list range_args :=
    flat_map (fun u => match snd (fst u) with IRange r => [r] | ISeq _ => [] end) us.
  (** The sequences with the places of their variables, edulint/linting/checkers/duplication/duplicate_sequence.py:314-317. *)
  Definition seqs_of (us : list (place * iter * option ascii)) : list (place * list sub * option ascii) :=
    flat_map (fun u => match snd (fst u) with IRange _ => [] | ISeq l => [(fst (fst u), l, snd u)] end) us.

  (** [get_nice_iters] for [n] fragments, edulint/linting/checkers/duplication/duplicate_sequence.py:288-331. *)
  Definition get_nice_iters (avars : list avar) (n : nat) : res (option iterable) :=
    match avars with
    | [] => Ok (Some (RangeCall (Call (Name "range") [int_node (Z.of_nat n)])))
    | _ =>
        do us <- iter_uses avars;
        match us with
        | None => Ok None
        | Some us =>
            match ranges_of us, seqs_of us with
            | [], (p, l, start) :: rest =>
                if forallb (fun q => texts_eqb (texts (fst (fst q)) (snd (fst q))) (texts p l)) rest then
                  let elements := match start with Some c => map (shift c) l | None => l end in
                  Ok (Some (ListDisplay (map (to_node p) elements)))
                else Ok None
            | ranges, [] =>
                if 2 <? length (distinct ranges) then Raise NoSubseqToLoop
                else do e <- consolidate_ranges ranges; Ok (Some (RangeCall e))
            | _, _ => Ok None
            end
        end
    end.

  (** What [similar_to_loop] does about the fragments, whether it counts as success, and what the message says. edulint/linting/checkers/duplication/duplicate_sequence.py:387-471. *)
  Inductive verdict := Nothing | Silent | LoopMessage (it : iterable) | MergeMessage (times : text).

  (** ** Merging with the loop around *)

  (** The loop around the fragments: what it iterates over, the name it assigns, whether the fragments are its whole body and whether they
      use the name, edulint/linting/checkers/duplication/duplicate_sequence.py:346-371. *)
  Record around := mk_around { loop_iter : expr; target_is_name : bool; whole_body : bool; uses_target : bool }.
  (** [get_fixed_by_merging_with_parent_loop]: how often the loop is to be repeated,
      edulint/linting/checkers/duplication/duplicate_sequence.py:345-384. *)
  Definition merge_with_loop (loop : option around) (avars : list avar) (n : nat) : res (option text) :=
    match loop, avars with
    | Some l, [] =>
        if negb (whole_body l) then Ok None
        else
          match get_range_params (loop_iter l) with
          | None => Ok None
          | Some (start, stop, step) =>
              do a <- get_const_value H start;
              if negb (value_eqb a (VInt 0)) then Ok None
              else
                do s <- get_const_value H step;
                if negb (value_eqb s (VInt 1)) then Ok None
                else if negb (target_is_name l) || uses_target l then Ok None
                else
                  do b <- get_const_value H stop;
                  match stop with
                  | Const _ => do t <- binary_operator H Mul; do v <- t b (VInt (Z.of_nat n)); Ok (Some (as_string (const_node v)))
                  | _ => Ok (Some (as_string stop ++ [TBin Mul; TConst (CInt (N.of_nat n))]))
                  end
          end
    | _, _ => Ok None
    end.

  (** [similar_to_loop] for [n] fragments of [m] statements, given the variables of their anti-unification and whether the fixed code saves
      enough, edulint/linting/checkers/duplication/duplicate_sequence.py:418-471. *)
  Definition similar_to_loop (n m : nat) (antiunified : option (list avar)) (loop : option around) (saves : bool) : res verdict :=
    if Nat.max n m <=? 2 then Ok Nothing
    else
      match antiunified with
      | None => Ok Nothing
      | Some avars =>
          do merged <- merge_with_loop loop avars n;
          match merged with
          | Some t => Ok (if saves then MergeMessage t else Nothing)
          | None =>
              match get_nice_iters avars n with
              | Raise x => match x with OtherError s => if String.eqb s "NoSubseqToLoop" then Ok Silent else Raise x | _ => Raise x end
              | Ok None => Ok Nothing
              | Ok (Some it) => Ok (if saves then LoopMessage it else Nothing)
              end
          end
      end.
End Iter.
