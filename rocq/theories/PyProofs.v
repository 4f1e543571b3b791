(** The text printed for an expression is read back as that expression. *)
From Coq Require Import String List Bool Arith NArith ZArith Lia.
From Verif Require Import Base PyModel PySpec.
Import ListNotations.
Local Open Scope string_scope.
Local Open Scope list_scope.

(** ** Induction over expressions *)
Section ExprInd.
  Variable Q : expr -> Prop.
  Hypothesis HName : forall x, Q (Name x).
  Hypothesis HConst : forall c, Q (Const c).
  Hypothesis HUnary : forall o e, Q e -> Q (Unary o e).
  Hypothesis HBinary : forall o a b, Q a -> Q b -> Q (Binary o a b).
  Hypothesis HBool : forall o vs, Forall Q vs -> Q (BoolOp o vs).
  Hypothesis HCompare : forall l ops, Q l -> Forall (fun cv => Q (snd cv)) ops -> Q (Compare l ops).
  Hypothesis HCall : forall f args, Q f -> Forall Q args -> Q (Call f args).
  Hypothesis HAttribute : forall e a, Q e -> Q (Attribute e a).
  Hypothesis HSubscript : forall e i, Q e -> Q i -> Q (Subscript e i).
  Hypothesis HIfExp : forall c a b, Q c -> Q a -> Q b -> Q (IfExp c a b).
  Hypothesis HOther : forall n, Q (Other n).
  Fixpoint expr_ind' (e : expr) : Q e :=
    match e with
    | Name x => HName x
    | Const c => HConst c
    | Unary o a => HUnary o a (expr_ind' a)
    | Binary o a b => HBinary o a b (expr_ind' a) (expr_ind' b)
    | BoolOp o vs => HBool o vs ((fix go l : Forall Q l := match l with [] => Forall_nil _ | a :: r => Forall_cons a (expr_ind' a) (go r) end) vs)
    | Compare l ops => HCompare l ops (expr_ind' l)
        ((fix go l : Forall (fun cv => Q (snd cv)) l := match l with [] => Forall_nil _ | a :: r => Forall_cons a (expr_ind' (snd a)) (go r) end) ops)
    | Call f args => HCall f args (expr_ind' f) ((fix go l : Forall Q l := match l with [] => Forall_nil _ | a :: r => Forall_cons a (expr_ind' a) (go r) end) args)
    | Attribute a x => HAttribute a x (expr_ind' a)
    | Subscript a i => HSubscript a i (expr_ind' a) (expr_ind' i)
    | IfExp c a b => HIfExp c a b (expr_ind' c) (expr_ind' a) (expr_ind' b)
    | Other n => HOther n
    end.
End ExprInd.

(** ** More fuel does not change what is read *)
Definition mono_at (f : nat) : Prop :=
  (forall l ts x, parse f l ts = Some x -> parse (S f) l ts = Some x) /\
  (forall l ts x, bools f l ts = Some x -> bools (S f) l ts = Some x) /\
  (forall ts x, rels f ts = Some x -> rels (S f) ts = Some x) /\
  (forall l a ts x, binaries f l a ts = Some x -> binaries (S f) l a ts = Some x) /\
  (forall a ts x, trailers f a ts = Some x -> trailers (S f) a ts = Some x) /\
  (forall ts x, arguments f ts = Some x -> arguments (S f) ts = Some x).

(** One step of each function, given the functions for the calls. *)
Definition parse_step (P : nat -> text -> option (expr * text)) (B : nat -> text -> option (list expr * text))
  (R : text -> option (list (cmpop * expr) * text)) (Bi : nat -> expr -> text -> option (expr * text))
  (T : expr -> text -> option (expr * text)) (l : nat) (ts : text) : option (expr * text) :=
  match l with
  | 0 => None
  | 1 =>
      match P 2 ts with
      | Some (a, TIf :: r) =>
          match P 2 r with
          | Some (c, TElse :: r') => match P 1 r' with Some (b, r'') => Some (IfExp c a b, r'') | None => None end
          | _ => None
          end
      | x => x
      end
  | 2 | 3 =>
      match P (S l) ts with
      | Some (a, r) =>
          match B l r with
          | Some (vs, r') => match make_bool l (a :: vs) with Some e => Some (e, r') | None => None end
          | None => None
          end
      | None => None
      end
  | 4 =>
      match ts with
      | TNot :: r => match P 4 r with Some (e, r') => Some (Unary Not e, r') | None => None end
      | _ => P 5 ts
      end
  | 5 =>
      match P 6 ts with
      | Some (a, r) => match R r with Some (ops, r') => Some (make_cmp a ops, r') | None => None end
      | None => None
      end
  | 12 =>
      match ts with
      | t :: r =>
          match prefix_op t with
          | Some o => match P 12 r with Some (e, r') => Some (Unary o e, r') | None => None end
          | None => P 13 ts
          end
      | [] => None
      end
  | 13 =>
      match P 15 ts with
      | Some (a, TBin Pow :: r) => match P 12 r with Some (b, r') => Some (Binary Pow a b, r') | None => None end
      | x => x
      end
  | 15 =>
      match ts with
      | TName x :: r => T (Name x) r
      | TConst c :: r => T (Const c) r
      | TOther n :: r => T (Other n) r
      | TLP :: r => match P 1 r with Some (e, TRP :: r') => T e r' | _ => None end
      | TNegOpen :: r => match P 1 r with Some (e, TNegClose :: r') => T (Unary Not e) r' | _ => None end
      | _ => None
      end
  | _ => match P (S l) ts with Some (a, r) => Bi l a r | None => None end
  end.

Lemma parse_S f l ts : parse (S f) l ts = parse_step (parse f) (bools f) (rels f) (binaries f) (trailers f) l ts.
Proof. reflexivity. Qed.

Ltac dmatch H :=
  match type of H with
  | context [match ?x with _ => _ end] =>
      match x with
      | context [match _ with _ => _ end] => fail 1
      | _ => let E := fresh "E" in destruct x eqn:E; try discriminate H
      end
  end.
Ltac use_mono MP MB MR MBi MT MA :=
  repeat match goal with
  | E : parse ?f ?l ?ts = Some ?x |- _ => apply MP in E
  | E : bools ?f ?l ?ts = Some ?x |- _ => apply MB in E
  | E : rels ?f ?ts = Some ?x |- _ => apply MR in E
  | E : binaries ?f ?l ?a ?ts = Some ?x |- _ => apply MBi in E
  | E : trailers ?f ?a ?ts = Some ?x |- _ => apply MT in E
  | E : arguments ?f ?ts = Some ?x |- _ => apply MA in E
  end.

Lemma parse_step_mono P B R Bi T P' B' R' Bi' T' :
  (forall l ts x, P l ts = Some x -> P' l ts = Some x) ->
  (forall l ts x, B l ts = Some x -> B' l ts = Some x) ->
  (forall ts x, R ts = Some x -> R' ts = Some x) ->
  (forall l a ts x, Bi l a ts = Some x -> Bi' l a ts = Some x) ->
  (forall a ts x, T a ts = Some x -> T' a ts = Some x) ->
  forall l ts x, parse_step P B R Bi T l ts = Some x -> parse_step P' B' R' Bi' T' l ts = Some x.
Proof.
  intros MP MB MR MBi MT l ts x H.
  assert (one : forall y, (match P 2 ts with
      | Some (a, TIf :: r) =>
          match P 2 r with
          | Some (c, TElse :: r') => match P 1 r' with Some (b, r'') => Some (IfExp c a b, r'') | None => None end
          | _ => None
          end
      | x => x
      end) = Some y -> (match P' 2 ts with
      | Some (a, TIf :: r) =>
          match P' 2 r with
          | Some (c, TElse :: r') => match P' 1 r' with Some (b, r'') => Some (IfExp c a b, r'') | None => None end
          | _ => None
          end
      | x => x
      end) = Some y).
  { intros y K. destruct (P 2 ts) as [[a r]|] eqn:E; [|discriminate]. rewrite (MP _ _ _ E).
    destruct r as [|t r]; [exact K|]. destruct t; try exact K.
    destruct (P 2 r) as [[c r1]|] eqn:E2; [|discriminate]. rewrite (MP _ _ _ E2).
    destruct r1 as [|t r1]; [discriminate|]. destruct t; try discriminate.
    destruct (P 1 r1) as [[b r2]|] eqn:E3; [|discriminate]. rewrite (MP _ _ _ E3). exact K. }
  assert (two : forall k y, match P (S k) ts with
      | Some (a, r) =>
          match B k r with
          | Some (vs, r') => match make_bool k (a :: vs) with Some e => Some (e, r') | None => None end
          | None => None
          end
      | None => None
      end = Some y -> match P' (S k) ts with
      | Some (a, r) =>
          match B' k r with
          | Some (vs, r') => match make_bool k (a :: vs) with Some e => Some (e, r') | None => None end
          | None => None
          end
      | None => None
      end = Some y).
  { intros k y K. destruct (P (S k) ts) as [[a r]|] eqn:E; [|discriminate]. rewrite (MP _ _ _ E).
    destruct (B k r) as [[vs r1]|] eqn:E2; [|discriminate]. rewrite (MB _ _ _ E2). exact K. }
  assert (bin : forall k y, match P (S k) ts with Some (a, r) => Bi k a r | None => None end = Some y ->
      match P' (S k) ts with Some (a, r) => Bi' k a r | None => None end = Some y).
  { intros k y K. destruct (P (S k) ts) as [[a r]|] eqn:E; [|discriminate]. rewrite (MP _ _ _ E). apply MBi. exact K. }
  unfold parse_step in *.
  destruct l as [|[|[|[|[|[|[|[|[|[|[|[|[|[|[|[|l]]]]]]]]]]]]]]]]; try discriminate H; try (apply one; exact H); try (apply two; exact H); try (apply bin; exact H).
  - (* 4 *) assert (d : P 5 ts = Some x -> P' 5 ts = Some x) by apply MP.
    destruct ts as [|t r]; [apply d; exact H|]. destruct t; try (apply d; exact H).
    destruct (P 4 r) as [[e r1]|] eqn:E; [|discriminate]. rewrite (MP _ _ _ E). exact H.
  - (* 5 *) destruct (P 6 ts) as [[a r]|] eqn:E; [|discriminate]. rewrite (MP _ _ _ E).
    destruct (R r) as [[ops r1]|] eqn:E2; [|discriminate]. rewrite (MR _ _ E2). exact H.
  - (* 12 *) destruct ts as [|t r]; [discriminate|]. destruct (prefix_op t) as [o|]; [|apply MP; exact H].
    destruct (P 12 r) as [[e r1]|] eqn:E; [|discriminate]. rewrite (MP _ _ _ E). exact H.
  - (* 13 *) destruct (P 15 ts) as [[a r]|] eqn:E; [|discriminate]. rewrite (MP _ _ _ E).
    destruct r as [|t r]; [exact H|]. destruct t; try exact H. destruct o; try exact H.
    destruct (P 12 r) as [[b r1]|] eqn:E2; [|discriminate]. rewrite (MP _ _ _ E2). exact H.
  - (* 15 *) destruct ts as [|t r]; [discriminate|]. destruct t; try discriminate; try (apply MT; exact H).
    + destruct (P 1 r) as [[e r1]|] eqn:E; [|discriminate]. rewrite (MP _ _ _ E).
      destruct r1 as [|t r1]; [discriminate|]. destruct t; try discriminate. apply MT; exact H.
    + destruct (P 1 r) as [[e r1]|] eqn:E; [|discriminate]. rewrite (MP _ _ _ E).
      destruct r1 as [|t r1]; [discriminate|]. destruct t; try discriminate. apply MT; exact H.
Qed.

Lemma trailers_S f acc ts : trailers (S f) acc ts =
  match ts with
  | TLP :: TRP :: r => trailers f (Call acc []) r
  | TLP :: r => match arguments f r with Some (vs, TRP :: r') => trailers f (Call acc vs) r' | _ => None end
  | TLB :: r => match parse f 1 r with Some (i, TRB :: r') => trailers f (Subscript acc i) r' | _ => None end
  | TDot :: TName x :: r => trailers f (Attribute acc x) r
  | TDot :: _ => None
  | _ => Some (acc, ts)
  end.
Proof. reflexivity. Qed.
Lemma arguments_S f ts : arguments (S f) ts =
  match parse f 1 ts with
  | Some (a, TComma :: r) => match arguments f r with Some (vs, r') => Some (a :: vs, r') | None => None end
  | Some (a, r) => Some ([a], r)
  | None => None
  end.
Proof. reflexivity. Qed.
Lemma binaries_S f l acc ts : binaries (S f) l acc ts =
  match ts with
  | t :: r =>
      match op_of_level l t with
      | Some o => match parse f (S l) r with Some (b, r') => binaries f l (Binary o acc b) r' | None => None end
      | None => Some (acc, ts)
      end
  | [] => Some (acc, [])
  end.
Proof. reflexivity. Qed.
Lemma rels_S f ts : rels (S f) ts =
  match rel ts with
  | Some (c, r) =>
      match parse f 6 r with
      | Some (a, r') => match rels f r' with Some (ops, r'') => Some ((c, a) :: ops, r'') | None => None end
      | None => None
      end
  | None => Some ([], ts)
  end.
Proof. reflexivity. Qed.
Lemma bools_S f l ts : bools (S f) l ts =
  match ts with
  | t :: r =>
      match bool_level l t with
      | Some _ =>
          match parse f (S l) r with
          | Some (a, r') => match bools f l r' with Some (vs, r'') => Some (a :: vs, r'') | None => None end
          | None => None
          end
      | None => Some ([], ts)
      end
  | [] => Some ([], [])
  end.
Proof. reflexivity. Qed.

Lemma mono_step f : mono_at f.
Proof.
  induction f as [|f (MP & MB & MR & MBi & MT & MA)].
  - repeat split; intros; discriminate.
  - split; [|split; [|split; [|split; [|split]]]].
    + intros l ts x H. rewrite parse_S in *. eapply parse_step_mono; [exact MP|exact MB|exact MR|exact MBi|exact MT|exact H].
    + intros l ts x H. rewrite bools_S in *. destruct ts as [|t r]; [exact H|]. destruct (bool_level l t); [|exact H].
      destruct (parse f (S l) r) as [[a r1]|] eqn:E; [|discriminate]. rewrite (MP _ _ _ E).
      destruct (bools f l r1) as [[vs r2]|] eqn:E2; [|discriminate]. rewrite (MB _ _ _ E2). exact H.
    + intros ts x H. rewrite rels_S in *. destruct (rel ts) as [[c r]|]; [|exact H].
      destruct (parse f 6 r) as [[a r1]|] eqn:E; [|discriminate]. rewrite (MP _ _ _ E).
      destruct (rels f r1) as [[vs r2]|] eqn:E2; [|discriminate]. rewrite (MR _ _ E2). exact H.
    + intros l a ts x H. rewrite binaries_S in *. destruct ts as [|t r]; [exact H|]. destruct (op_of_level l t); [|exact H].
      destruct (parse f (S l) r) as [[b' r1]|] eqn:E; [|discriminate]. rewrite (MP _ _ _ E). apply MBi. exact H.
    + intros a ts x H. rewrite trailers_S in *. destruct ts as [|t r]; [exact H|].
      destruct t; try exact H.
      * (* call *)
        assert (go : forall y, match arguments f r with Some (vs, TRP :: r') => trailers f (Call a vs) r' | _ => None end = Some y ->
                     match arguments (S f) r with Some (vs, TRP :: r') => trailers (S f) (Call a vs) r' | _ => None end = Some y).
        { intros y K. destruct (arguments f r) as [[vs r1]|] eqn:E; [|discriminate]. rewrite (MA _ _ E).
          destruct r1 as [|t1 r1]; [discriminate|]. destruct t1; try discriminate. apply MT; exact K. }
        destruct r as [|t r]; [apply go; exact H|]. destruct t; try (apply go; exact H). apply MT; exact H.
      * destruct (parse f 1 r) as [[i r1]|] eqn:E; [|discriminate]. rewrite (MP _ _ _ E).
        destruct r1 as [|t1 r1]; [discriminate|]. destruct t1; try discriminate. apply MT; exact H.
      * destruct r as [|t r]; [discriminate|]. destruct t; try discriminate. apply MT; exact H.
    + intros ts x H. rewrite arguments_S in *. destruct (parse f 1 ts) as [[a r]|] eqn:E; [|discriminate]. rewrite (MP _ _ _ E).
      destruct r as [|t r]; [exact H|]. destruct t; try exact H.
      destruct (arguments f r) as [[vs r1]|] eqn:E2; [|discriminate]. rewrite (MA _ _ E2). exact H.
Qed.

(** ** Reading, without the fuel *)
Definition Pr l ts e r := exists f, parse f l ts = Some (e, r).
Definition Bl l ts vs r := exists f, bools f l ts = Some (vs, r).
Definition Rl ts ops r := exists f, rels f ts = Some (ops, r).
Definition Bi l a ts e r := exists f, binaries f l a ts = Some (e, r).
Definition Tr a ts e r := exists f, trailers f a ts = Some (e, r).
Definition Ar ts vs r := exists f, arguments f ts = Some (vs, r).

Lemma parse_le f f' l ts x : f <= f' -> parse f l ts = Some x -> parse f' l ts = Some x.
Proof. induction 1; auto. intro H0. apply (proj1 (mono_step m)). auto. Qed.
Lemma bools_le f f' l ts x : f <= f' -> bools f l ts = Some x -> bools f' l ts = Some x.
Proof. induction 1; auto. intro H0. apply (proj1 (proj2 (mono_step m))). auto. Qed.
Lemma rels_le f f' ts x : f <= f' -> rels f ts = Some x -> rels f' ts = Some x.
Proof. induction 1; auto. intro H0. apply (proj1 (proj2 (proj2 (mono_step m)))). auto. Qed.
Lemma binaries_le f f' l a ts x : f <= f' -> binaries f l a ts = Some x -> binaries f' l a ts = Some x.
Proof. induction 1; auto. intro H0. apply (proj1 (proj2 (proj2 (proj2 (mono_step m))))). auto. Qed.
Lemma trailers_le f f' a ts x : f <= f' -> trailers f a ts = Some x -> trailers f' a ts = Some x.
Proof. induction 1; auto. intro H0. apply (proj1 (proj2 (proj2 (proj2 (proj2 (mono_step m)))))). auto. Qed.
Lemma arguments_le f f' ts x : f <= f' -> arguments f ts = Some x -> arguments f' ts = Some x.
Proof. induction 1; auto. intro H0. apply (proj2 (proj2 (proj2 (proj2 (proj2 (mono_step m)))))). auto. Qed.

Lemma Pr_det l ts e r e' r' : Pr l ts e r -> Pr l ts e' r' -> e = e' /\ r = r'.
Proof.
  intros [f H] [f' H']. apply (parse_le f (f + f')) in H; [|lia]. apply (parse_le f' (f + f')) in H'; [|lia].
  rewrite H in H'. injection H' as -> ->. auto.
Qed.
Theorem reads_det t e e' : reads t e -> reads t e' -> e = e'.
Proof. intros H H'. exact (proj1 (Pr_det 1 t e [] e' [] H H')). Qed.

(** ** Rules *)
Ltac bump H f := first
  [ apply (parse_le _ f) in H; [|lia] | apply (bools_le _ f) in H; [|lia] | apply (rels_le _ f) in H; [|lia]
  | apply (binaries_le _ f) in H; [|lia] | apply (trailers_le _ f) in H; [|lia] | apply (arguments_le _ f) in H; [|lia] ].

Definition cont (ts : text) : nat :=
  match ts with
  | TIf :: _ => 1 | TOr :: _ => 2 | TAnd :: _ => 3
  | TRel _ :: _ | TIs :: _ | TIn :: _ => 5
  | TNot :: TIn :: _ => 5
  | TBin o :: _ => bin_prec o
  | TLP :: _ | TLB :: _ | TDot :: _ => 15
  | _ => 0
  end.

Lemma tr_stop a ts : cont ts < 15 -> Tr a ts a ts.
Proof. intro H. exists 1. rewrite trailers_S. destruct ts as [|t r]; [reflexivity|]. destruct t; try reflexivity; cbn in H; lia. Qed.
Lemma tr_call0 a ts e r : Tr (Call a []) ts e r -> Tr a (TLP :: TRP :: ts) e r.
Proof. intros [f H]. exists (S f). rewrite trailers_S. exact H. Qed.
Lemma parse_nonempty f l e r : parse f l [] = Some (e, r) -> False.
Proof.
  revert l e r. induction f as [|f IH]; intros l e r H; [discriminate|].
  rewrite parse_S in H. unfold parse_step in H.
  destruct l as [|[|[|[|[|[|[|[|[|[|[|[|[|[|[|[|l]]]]]]]]]]]]]]]]; try discriminate H;
    match type of H with context [parse f ?k []] => destruct (parse f k []) as [[a' r']|] eqn:E; [exact (IH _ _ _ E)|discriminate] end.
Qed.
Lemma parse_not_rp f l ts x : parse f l (TRP :: ts) = Some x -> False.
Proof.
  revert l x. induction f as [|f IH]; intros l x H; [discriminate|].
  rewrite parse_S in H. unfold parse_step in H. cbn [prefix_op] in H.
  destruct l as [|[|[|[|[|[|[|[|[|[|[|[|[|[|[|[|l]]]]]]]]]]]]]]]]; try discriminate H;
    match type of H with context [parse f ?k (TRP :: ts)] => destruct (parse f k (TRP :: ts)) as [[a' r']|] eqn:E; [exact (IH _ _ E)|discriminate] end.
Qed.
Lemma tr_call a ts vs r e r' : Ar ts vs (TRP :: r) -> Tr (Call a vs) r e r' -> Tr a (TLP :: ts) e r'.
Proof.
  intros [f H] [f' H']. exists (S (f + f')). rewrite trailers_S.
  destruct ts as [|t ts].
  - destruct f; [discriminate|]. rewrite arguments_S in H. destruct (parse f 1 []) as [[b s]|] eqn:E; [|discriminate].
    exfalso. exact (parse_nonempty _ _ _ _ E).
  - bump H (f + f'). bump H' (f + f').
    assert (go : match arguments (f + f') (t :: ts) with Some (vs, TRP :: r'0) => trailers (f + f') (Call a vs) r'0 | _ => None end = Some (e, r'))
      by (rewrite H; exact H').
    destruct t; try exact go. exfalso. destruct (f + f') as [|g]; [discriminate|]. rewrite arguments_S in H.
    destruct (parse g 1 (TRP :: ts)) as [[b s]|] eqn:E; [|discriminate]. exact (parse_not_rp _ _ _ _ E).
Qed.
Lemma tr_sub a ts i r e r' : Pr 1 ts i (TRB :: r) -> Tr (Subscript a i) r e r' -> Tr a (TLB :: ts) e r'.
Proof. intros [f H] [f' H']. exists (S (f + f')). rewrite trailers_S. bump H (f + f'). bump H' (f + f'). rewrite H. exact H'. Qed.
Lemma tr_attr a x ts e r' : Tr (Attribute a x) ts e r' -> Tr a (TDot :: TName x :: ts) e r'.
Proof. intros [f' H']. exists (S f'). rewrite trailers_S. exact H'. Qed.
Lemma ar_one ts a r : Pr 1 ts a r -> match r with TComma :: _ => False | _ => True end -> Ar ts [a] r.
Proof.
  intros [f H] N. exists (S f). rewrite arguments_S, H. destruct r as [|t r]; [reflexivity|]. destruct t; try reflexivity. contradiction.
Qed.
Lemma ar_more ts a r vs r' : Pr 1 ts a (TComma :: r) -> Ar r vs r' -> Ar ts (a :: vs) r'.
Proof. intros [f H] [f' H']. exists (S (f + f')). rewrite arguments_S. bump H (f + f'). bump H' (f + f'). rewrite H, H'. reflexivity. Qed.

Lemma p_name x ts e r : Tr (Name x) ts e r -> Pr 15 (TName x :: ts) e r.
Proof. intros [f H]. exists (S f). rewrite parse_S. exact H. Qed.
Lemma p_const x ts e r : Tr (Const x) ts e r -> Pr 15 (TConst x :: ts) e r.
Proof. intros [f H]. exists (S f). rewrite parse_S. exact H. Qed.
Lemma p_other x ts e r : Tr (Other x) ts e r -> Pr 15 (TOther x :: ts) e r.
Proof. intros [f H]. exists (S f). rewrite parse_S. exact H. Qed.
Lemma p_paren ts a r e r' : Pr 1 ts a (TRP :: r) -> Tr a r e r' -> Pr 15 (TLP :: ts) e r'.
Proof. intros [f H] [f' H']. exists (S (f + f')). rewrite parse_S. unfold parse_step. bump H (f + f'). bump H' (f + f'). rewrite H. exact H'. Qed.
Lemma p_neg ts a r e r' : Pr 1 ts a (TNegClose :: r) -> Tr (Unary Not a) r e r' -> Pr 15 (TNegOpen :: ts) e r'.
Proof. intros [f H] [f' H']. exists (S (f + f')). rewrite parse_S. unfold parse_step. bump H (f + f'). bump H' (f + f'). rewrite H. exact H'. Qed.
Lemma p_pow ts a r b r' : Pr 15 ts a (TBin Pow :: r) -> Pr 12 r b r' -> Pr 13 ts (Binary Pow a b) r'.
Proof. intros [f H] [f' H']. exists (S (f + f')). rewrite parse_S. unfold parse_step. bump H (f + f'). bump H' (f + f'). rewrite H, H'. reflexivity. Qed.
Lemma p_13 ts a r : Pr 15 ts a r -> cont r < 13 -> Pr 13 ts a r.
Proof.
  intros [f H] C. exists (S f). rewrite parse_S. unfold parse_step. rewrite H.
  destruct r as [|t r]; [reflexivity|]. destruct t; try reflexivity. destruct o; try reflexivity. cbn in C. lia.
Qed.
Lemma p_prefix t o ts a r : prefix_op t = Some o -> Pr 12 ts a r -> Pr 12 (t :: ts) (Unary o a) r.
Proof. intros K [f H]. exists (S f). rewrite parse_S. unfold parse_step. rewrite K, H. reflexivity. Qed.
Definition starts (bad : token -> bool) (ts : text) : bool := match ts with t :: _ => bad t | [] => true end.
Definition is_not t := match t with TNot => true | _ => false end.
Definition is_prefix t := match prefix_op t with Some _ => true | None => false end.
Lemma p_12 ts a r : Pr 13 ts a r -> starts is_prefix ts = false -> Pr 12 ts a r.
Proof.
  intros [f H] C. exists (S f). rewrite parse_S. unfold parse_step. unfold starts, is_prefix in C.
  destruct ts as [|t ts]; [discriminate|]. destruct (prefix_op t); [discriminate|]. exact H.
Qed.
Definition plain l := (6 <= l <= 11).
Lemma p_bin l ts a r e r' : plain l -> Pr (S l) ts a r -> Bi l a r e r' -> Pr l ts e r'.
Proof.
  intros L [f H] [f' H']. exists (S (f + f')). rewrite parse_S. unfold parse_step. bump H (f + f'). bump H' (f + f').
  unfold plain in L. destruct l as [|[|[|[|[|[|[|[|[|[|[|[|[|[|[|[|l]]]]]]]]]]]]]]]]; try lia; rewrite H; exact H'.
Qed.
Lemma op_of_level_cont l t ts : plain l -> cont (t :: ts) < l -> op_of_level l t = None.
Proof.
  unfold plain. intros L H. destruct t; try reflexivity. cbn [op_of_level cont] in *.
  destruct (Nat.eqb_spec (bin_prec o) l); [lia|reflexivity].
Qed.
Lemma bi_stop l a ts : plain l -> cont ts < l -> Bi l a ts a ts.
Proof. intros L H. exists 1. rewrite binaries_S. destruct ts as [|t r]; [reflexivity|]. rewrite (op_of_level_cont l t r L H). reflexivity. Qed.
Lemma bi_more l a o ts b r e r' : bin_prec o = l -> Pr (S l) ts b r -> Bi l (Binary o a b) r e r' -> Bi l a (TBin o :: ts) e r'.
Proof.
  intros L [f H] [f' H']. exists (S (f + f')). rewrite binaries_S. bump H (f + f'). bump H' (f + f').
  cbn [op_of_level]. rewrite L, Nat.eqb_refl, H. exact H'.
Qed.
Lemma p_rel ts a r ops r' : Pr 6 ts a r -> Rl r ops r' -> Pr 5 ts (make_cmp a ops) r'.
Proof. intros [f H] [f' H']. exists (S (f + f')). rewrite parse_S. unfold parse_step. bump H (f + f'). bump H' (f + f'). rewrite H, H'. reflexivity. Qed.
Lemma rl_stop ts : cont ts < 5 -> Rl ts [] ts.
Proof.
  intro H. exists 1. rewrite rels_S. destruct ts as [|t r]; [reflexivity|].
  destruct t; try reflexivity; try (cbn in H; lia). destruct r as [|t r]; [reflexivity|]. destruct t; try reflexivity; cbn in H; lia.
Qed.
Lemma rel_tokens c ts : starts is_not ts = false -> rel (cmp_tokens c ++ ts) = Some (c, ts).
Proof. destruct c; try reflexivity. intro H. destruct ts as [|t ts]; [discriminate|]. destruct t; try discriminate; reflexivity. Qed.
Lemma rl_more c ts a r ops r' : starts is_not ts = false -> Pr 6 ts a r -> Rl r ops r' -> Rl (cmp_tokens c ++ ts) ((c, a) :: ops) r'.
Proof.
  intros N [f H] [f' H']. exists (S (f + f')). rewrite rels_S. rewrite (rel_tokens c ts N). bump H (f + f'). bump H' (f + f'). rewrite H, H'. reflexivity.
Qed.
Lemma p_not ts a r : Pr 4 ts a r -> Pr 4 (TNot :: ts) (Unary Not a) r.
Proof. intros [f H]. exists (S f). rewrite parse_S. unfold parse_step. rewrite H. reflexivity. Qed.
Lemma p_4 ts a r : Pr 5 ts a r -> starts is_not ts = false -> Pr 4 ts a r.
Proof.
  intros [f H] C. exists (S f). rewrite parse_S. unfold parse_step.
  destruct ts as [|t ts]; [discriminate|]. destruct t; try exact H. discriminate.
Qed.
Lemma p_bool l ts a r vs r' e : l = 2 \/ l = 3 -> Pr (S l) ts a r -> Bl l r vs r' -> make_bool l (a :: vs) = Some e -> Pr l ts e r'.
Proof.
  intros L [f H] [f' H'] M. exists (S (f + f')). rewrite parse_S. unfold parse_step. bump H (f + f'). bump H' (f + f').
  destruct L; subst; rewrite H, H', M; reflexivity.
Qed.
Lemma bl_stop l ts : l = 2 \/ l = 3 -> cont ts < l -> Bl l ts [] ts.
Proof.
  intros L H. exists 1. rewrite bools_S. destruct ts as [|t r]; [reflexivity|].
  destruct L; subst; destruct t; try reflexivity; cbn in H; lia.
Qed.
Lemma bl_more o ts a r vs r' : Pr (S (bool_prec o)) ts a r -> Bl (bool_prec o) r vs r' -> Bl (bool_prec o) (bool_token o :: ts) (a :: vs) r'.
Proof.
  intros [f H] [f' H']. exists (S (f + f')). rewrite bools_S. bump H (f + f'). bump H' (f + f').
  destruct o; cbn [bool_prec bool_token bool_level] in *; rewrite H, H'; reflexivity.
Qed.
Lemma p_if ts a r c r' b r'' : Pr 2 ts a (TIf :: r) -> Pr 2 r c (TElse :: r') -> Pr 1 r' b r'' -> Pr 1 ts (IfExp c a b) r''.
Proof.
  intros [f1 H1] [f2 H2] [f3 H3]. exists (S (f1 + f2 + f3)). rewrite parse_S. unfold parse_step.
  bump H1 (f1 + f2 + f3). bump H2 (f1 + f2 + f3). bump H3 (f1 + f2 + f3). rewrite H1, H2, H3. reflexivity.
Qed.
Lemma p_1 ts a r : Pr 2 ts a r -> cont r < 1 -> Pr 1 ts a r.
Proof.
  intros [f H] C. exists (S f). rewrite parse_S. unfold parse_step. rewrite H.
  destruct r as [|t r]; [reflexivity|]. destruct t; try reflexivity. cbn in C. lia.
Qed.

(** ** The expression read back *)
Definition boolop_eqb (a b : boolop) : bool := match a, b with And, And | Or, Or => true | _, _ => false end.
Definition items (o : boolop) (e : expr) : list expr :=
  match e with BoolOp o' l => if boolop_eqb o o' then l else [e] | _ => [e] end.
Definition onto (e : expr) (ops : list (cmpop * expr)) : expr :=
  match e with Compare l ops' => Compare l (ops' ++ ops) | _ => Compare e ops end.
Fixpoint norm (e : expr) : expr :=
  match e with
  | Name _ | Const _ | Other _ => e
  | Unary o a => Unary o (norm a)
  | Binary o a b => Binary o (norm a) (norm b)
  | BoolOp o vs => BoolOp o (flat_map (fun v => items o (norm v)) vs)
  | Compare a ops => onto (norm a) (map (fun cv => (fst cv, norm (snd cv))) ops)
  | Call f args => Call (norm f) (map norm args)
  | Attribute a x => Attribute (norm a) x
  | Subscript a i => Subscript (norm a) (norm i)
  | IfExp c a b => IfExp (norm c) (norm a) (norm b)
  end.

Definition good_core (t : text) (e : expr) (p : nat) (rest : text) : Prop :=
  match p with
  | 15 => forall e'' r', Tr e rest e'' r' -> Pr 15 (t ++ rest) e'' r'
  | 2 | 3 => exists l, e = BoolOp (level_op p) l /\ 2 <= length l /\
      (cont rest <= p -> forall vs r', Bl p rest vs r' ->
       exists a r1 vs1, Pr (S p) (t ++ rest) a r1 /\ Bl p r1 vs1 r' /\ l ++ vs = a :: vs1)
  | 5 => exists a ops, e = Compare a ops /\
      (cont rest <= 5 -> forall ops' r', Rl rest ops' r' -> Pr 5 (t ++ rest) (Compare a (ops ++ ops')) r')
  | 1 | 4 | 12 | 13 => cont rest < p -> Pr p (t ++ rest) e rest
  | _ => cont rest <= p -> forall e'' r', Bi p e rest e'' r' -> Pr p (t ++ rest) e'' r'
  end.
Record good (t : text) (e : expr) (p : nat) : Prop := {
  g_range : 1 <= p <= 15;
  g_14 : p <> 14;
  g_ne : t <> [];
  g_not : 5 <= p -> starts is_not t = false;
  g_prefix : 13 <= p -> starts is_prefix t = false;
  g_core : forall rest, good_core t e p rest
}.

Lemma starts_app bad t r : t <> [] -> starts bad (t ++ r) = starts bad t.
Proof. destruct t; [congruence|reflexivity]. Qed.

Lemma make_bool_two l vs : 2 <= length vs -> make_bool l vs = Some (BoolOp (level_op l) vs).
Proof. destruct vs as [|a [|b r]]; cbn [length]; intros; try lia; reflexivity. Qed.

Lemma good_own t e p rest : good t e p -> cont rest < p -> Pr p (t ++ rest) e rest.
Proof.
  intros [R N14 NE NN NP G] C. specialize (G rest). unfold good_core in G.
  assert (b23 : (p = 2 \/ p = 3) -> (exists l, e = BoolOp (level_op p) l /\ 2 <= length l /\
      (cont rest <= p -> forall vs r', Bl p rest vs r' ->
       exists a r1 vs1, Pr (S p) (t ++ rest) a r1 /\ Bl p r1 vs1 r' /\ l ++ vs = a :: vs1)) -> Pr p (t ++ rest) e rest).
  { intros L (l & -> & L2 & H). destruct (H ltac:(lia) [] rest (bl_stop p rest L C)) as (a & r1 & vs1 & A & B & E).
    rewrite app_nil_r in E. subst l. eapply p_bool; [exact L|exact A|exact B|]. apply make_bool_two. exact L2. }
  assert (bin : plain p -> (cont rest <= p -> forall e'' r', Bi p e rest e'' r' -> Pr p (t ++ rest) e'' r') -> Pr p (t ++ rest) e rest).
  { intros L H. apply H; [lia|]. apply bi_stop; assumption. }
  destruct p as [|[|[|[|[|[|[|[|[|[|[|[|[|[|[|[|p]]]]]]]]]]]]]]]]; try lia;
    try (apply b23; [lia|exact G]); try (apply bin; [unfold plain; lia|exact G]); try (apply G; exact C).
  - destruct G as (a & ops & -> & G). specialize (G ltac:(lia) [] rest (rl_stop rest C)). rewrite app_nil_r in G. exact G.
  - apply G. apply tr_stop. exact C.
Qed.

Lemma step_down ts e rest l : 1 <= l <= 11 -> Pr (S l) ts e rest -> cont rest < l -> (l = 4 -> starts is_not ts = false) -> Pr l ts e rest.
Proof.
  intros R H C N.
  assert (plain l \/ l = 1 \/ l = 2 \/ l = 3 \/ l = 4 \/ l = 5) as [L|[->|[->|[->|[->| ->]]]]] by (unfold plain; lia).
  - eapply p_bin; [exact L|exact H|]. apply bi_stop; assumption.
  - apply p_1; assumption.
  - eapply p_bool; [auto|exact H|apply bl_stop; auto|reflexivity].
  - eapply p_bool; [auto|exact H|apply bl_stop; auto|reflexivity].
  - apply p_4; auto.
  - change e with (make_cmp e []). eapply p_rel; [exact H|]. apply rl_stop. exact C.
Qed.

Lemma good_at t e p l rest : good t e p -> 1 <= l <= p -> l <> 14 -> cont rest < l -> Pr l (t ++ rest) e rest.
Proof.
  intros G. pose proof (g_range _ _ _ G) as R. pose proof (g_14 _ _ _ G) as N14. pose proof (g_ne _ _ _ G) as NE.
  assert (D : forall k l, l = p - k -> 1 <= l -> l <> 14 -> cont rest < l -> Pr l (t ++ rest) e rest).
  { induction k as [|k IH]; intros l' -> L1 L14 C.
    - replace (p - 0) with p in * by lia. apply good_own; assumption.
    - destruct (Nat.le_gt_cases p k) as [|LT]; [replace (p - S k) with 0 in L1 by lia; lia|].
      assert (p - S k = 13 \/ p - S k = 12 \/ p - S k <= 11) as [E|[E|E]] by lia.
      + assert (p = 15) by lia. subst p. rewrite E in *. apply p_13; [|exact C]. apply good_own; [exact G|lia].
      + rewrite E in *. apply p_12; [|rewrite starts_app by exact NE; apply (g_prefix _ _ _ G); lia].
        apply IH; lia.
      + apply step_down; [lia| |exact C|].
        * replace (S (p - S k)) with (p - k) by lia. apply IH; lia.
        * intro E4. rewrite starts_app by exact NE. apply (g_not _ _ _ G). lia. }
  intros L L14 C. apply (D (p - l)); try lia; try assumption.
Qed.

Lemma good_bin t e q p rest e'' r' :
  good t e q -> plain p -> p <= q -> cont rest <= p -> Bi p e rest e'' r' -> Pr p (t ++ rest) e'' r'.
Proof.
  intros G L Q C B. destruct (Nat.eq_dec p q) as [<-|N].
  - pose proof (g_core _ _ _ G rest) as K. unfold good_core in K.
    destruct p as [|[|[|[|[|[|[|[|[|[|[|[|[|[|[|[|p]]]]]]]]]]]]]]]]; unfold plain in L; try lia; apply K; assumption.
  - eapply p_bin; [exact L| |exact B]. eapply good_at; [exact G|unfold plain in L; lia|unfold plain in L; lia|lia].
Qed.
Lemma good_rel t e q rest ops r' : good t e q -> 5 <= q -> cont rest <= 5 -> Rl rest ops r' -> ops <> [] ->
  Pr 5 (t ++ rest) (if Nat.eqb q 5 then onto e ops else Compare e ops) r'.
Proof.
  intros G Q C B NE. destruct (Nat.eqb_spec q 5) as [->|N].
  - pose proof (g_core _ _ _ G rest) as K. cbn [good_core] in K. destruct K as (a & ops0 & -> & K). cbn [onto]. apply K; assumption.
  - assert (E : Compare e ops = make_cmp e ops) by (destruct ops; [congruence|reflexivity]). rewrite E.
    eapply p_rel; [|exact B]. eapply good_at; [exact G|lia|lia|lia].
Qed.
Definition op_at (p : nat) : boolop := level_op p.
Lemma good_items t e q p rest vs r' : good t e q -> (p = 2 \/ p = 3) -> p <= q -> cont rest <= p -> Bl p rest vs r' ->
  (p < q -> items (level_op p) e = [e]) ->
  exists a r1 vs1, Pr (S p) (t ++ rest) a r1 /\ Bl p r1 vs1 r' /\ items (level_op p) e ++ vs = a :: vs1.
Proof.
  intros G L Q C B NI. destruct (Nat.eq_dec p q) as [<-|N].
  - pose proof (g_core _ _ _ G rest) as K. unfold good_core in K.
    destruct L as [->| ->]; destruct K as (l & -> & _ & K); cbn [level_op items boolop_eqb]; apply K; assumption.
  - exists e, rest, vs. rewrite NI by lia. split; [|split; [exact B|reflexivity]].
    eapply good_at; [exact G|lia|lia|lia].
Qed.
Lemma good_tr t e rest e'' r' : good t e 15 -> Tr e rest e'' r' -> Pr 15 (t ++ rest) e'' r'.
Proof. intros G T. exact (g_core _ _ _ G rest e'' r' T). Qed.

Lemma good_paren t e q : good t e q -> good (paren t) e 15.
Proof.
  intros G. split; try lia; try reflexivity; try discriminate.
  intros rest e'' r' T. unfold paren. cbn [List.app]. rewrite <- app_assoc. cbn [List.app].
  eapply p_paren; [|exact T]. eapply good_at; [exact G|pose proof (g_range _ _ _ G); lia|lia|cbn; lia].
Qed.
Definition wraps (outer inner : nat) (same : bool) := (Nat.ltb inner outer || (Nat.eqb inner outer && same)).
Lemma good_wrap outer q same t e : good t e q -> good (wrap outer q same t) e (if wraps outer q same then 15 else q).
Proof. intro G. unfold wrap, wraps. destruct (_ || _); [eapply good_paren; exact G|exact G]. Qed.
Lemma wraps_level outer q same : outer <= 15 -> outer <= (if wraps outer q same then 15 else q).
Proof. intro L. unfold wraps. destruct (Nat.ltb_spec q outer); cbn [orb]; [lia|]. destruct (_ && _); lia. Qed.
Lemma wraps_level_same outer q : outer < 15 -> outer < (if wraps outer q true then 15 else q).
Proof. intro L. unfold wraps. destruct (Nat.ltb_spec q outer); cbn [orb]; [lia|]. rewrite andb_true_r. destruct (Nat.eqb_spec q outer); lia. Qed.

Lemma bin_prec_range o : o <> Pow -> plain (bin_prec o).
Proof. unfold plain. destruct o; cbn; intros; try lia. congruence. Qed.
Lemma prec_range e : 1 <= prec e <= 15 /\ prec e <> 14.
Proof. destruct e; cbn; try lia; [destruct o|destruct o|destruct o]; cbn; lia. Qed.
Lemma onto_compare e ops : exists a l, onto e ops = Compare a l.
Proof. destruct e; cbn; eauto. Qed.
Lemma onto_app e M a l ops : onto e M = Compare a l -> onto e (M ++ ops) = Compare a (l ++ ops).
Proof. intro E. destruct e; cbn [onto] in *; injection E as E1 E2; subst; rewrite ?app_assoc; reflexivity. Qed.
Lemma norm_prec e : prec (norm e) = prec e.
Proof. destruct e; try reflexivity. cbn [norm]. destruct (onto_compare (norm e) (map (fun cv => (fst cv, norm (snd cv))) ops)) as (a & l & ->). reflexivity. Qed.

Lemma good_own_intro t e p : p = 1 \/ p = 4 \/ p = 12 \/ p = 13 -> t <> [] -> (5 <= p -> starts is_not t = false) ->
  (13 <= p -> starts is_prefix t = false) -> (forall rest, cont rest < p -> Pr p (t ++ rest) e rest) -> good t e p.
Proof.
  intros L NE A B H. split; try lia; auto. intros rest.
  destruct L as [->|[->|[->| ->]]]; exact (H rest).
Qed.
Lemma good_bin_intro t e p : plain p -> t <> [] -> starts is_not t = false ->
  (forall rest e'' r', cont rest <= p -> Bi p e rest e'' r' -> Pr p (t ++ rest) e'' r') -> good t e p.
Proof.
  unfold plain. intros L NE A H. split; try lia; auto. intros rest. unfold good_core.
  destruct p as [|[|[|[|[|[|[|[|[|[|[|[|[|[|[|[|p]]]]]]]]]]]]]]]]; try lia; intros; apply H; assumption.
Qed.

Lemma cont_cmp c ts : cont (cmp_tokens c ++ ts) = 5.
Proof. destruct c; reflexivity. Qed.

Theorem round e : well_formed e = true -> good (as_string e) (norm e) (prec e).
Proof.
  induction e as [x|c|o a IHa|o a b IHa IHb|o vs IHvs|a ops IHa IHops|g args IHg IHargs|a x IHa|a i IHa IHi|c a b IHc IHa IHb|n] using expr_ind'; intro WF.
  - (* name *) split; cbn [prec]; try lia; try reflexivity; try discriminate. intros rest e'' r' T. apply p_name. exact T.
  - split; cbn [prec]; try lia; try reflexivity; try discriminate. intros rest e'' r' T. apply p_const. exact T.
  - (* unary *)
    cbn [well_formed] in WF. specialize (IHa WF).
    assert (G : forall p, good (wrap p (prec a) false (as_string a)) (norm a) (if wraps p (prec a) false then 15 else prec a))
      by (intro; apply good_wrap; exact IHa).
    cbn [as_string norm].
    destruct o; apply good_own_intro; cbn [prec]; try lia; try discriminate; try (intros; reflexivity).
    + intros rest C. cbn [un_token List.app]. apply p_not. eapply good_at; [apply G| |lia|exact C].
      split; [lia|apply wraps_level; lia].
    + intros rest C. cbn [un_token List.app]. apply p_prefix; [reflexivity|]. eapply good_at; [apply G| |lia|exact C].
      split; [lia|apply wraps_level; lia].
    + intros rest C. cbn [un_token List.app]. apply p_prefix; [reflexivity|]. eapply good_at; [apply G| |lia|exact C].
      split; [lia|apply wraps_level; lia].
    + intros rest C. cbn [un_token List.app]. apply p_prefix; [reflexivity|]. eapply good_at; [apply G| |lia|exact C].
      split; [lia|apply wraps_level; lia].
  - (* binary *)
    cbn [well_formed] in WF. apply andb_true_iff in WF. destruct WF as [WA WB]. specialize (IHa WA). specialize (IHb WB).
    cbn [as_string norm prec].
    assert (o = Pow \/ o <> Pow) as [->|NP] by (destruct o; auto; right; discriminate).
    + cbn [bin_prec negb].
      pose proof (good_wrap 13 (prec a) true _ _ IHa) as GA. pose proof (good_wrap 13 (prec b) false _ _ IHb) as GB.
      assert (E15 : (if wraps 13 (prec a) true then 15 else prec a) = 15).
      { pose proof (wraps_level_same 13 (prec a) ltac:(lia)) as K. pose proof (prec_range a). destruct (wraps 13 (prec a) true); lia. }
      rewrite E15 in GA.
      apply good_own_intro; [auto| | | |].
      * intro K. apply app_eq_nil in K. exact (g_ne _ _ _ GA (proj1 K)).
      * intros _. rewrite starts_app by exact (g_ne _ _ _ GA). apply (g_not _ _ _ GA). lia.
      * intros _. rewrite starts_app by exact (g_ne _ _ _ GA). apply (g_prefix _ _ _ GA). lia.
      * intros rest C. rewrite <- !app_assoc. cbn [List.app].
        eapply p_pow; [eapply good_tr; [exact GA|apply tr_stop; cbn; lia]|].
        pose proof (wraps_level 13 (prec b) false ltac:(lia)) as KB.
        apply p_12; [eapply good_at; [exact GB|lia|lia|exact C]|].
        rewrite starts_app by exact (g_ne _ _ _ GB). apply (g_prefix _ _ _ GB). exact KB.
    + assert (E : (match o with Pow => true | _ => false end) = false) by (destruct o; congruence).
      rewrite E. cbn [negb]. set (p := bin_prec o). pose proof (bin_prec_range o NP) as PL. fold p in PL.
      pose proof (good_wrap p (prec a) false _ _ IHa) as GA. pose proof (good_wrap p (prec b) true _ _ IHb) as GB.
      pose proof (wraps_level p (prec a) false ltac:(unfold plain in PL; lia)) as KA.
      pose proof (wraps_level_same p (prec b) ltac:(unfold plain in PL; lia)) as KB.
      apply good_bin_intro; [exact PL| | |].
      * intro K. apply app_eq_nil in K. exact (g_ne _ _ _ GA (proj1 K)).
      * rewrite starts_app by exact (g_ne _ _ _ GA). apply (g_not _ _ _ GA). unfold plain in PL. lia.
      * intros rest e'' r' C B. rewrite <- !app_assoc. cbn [List.app].
        eapply good_bin; [exact GA|exact PL|exact KA|cbn [cont]; fold p; lia|].
        eapply bi_more; [reflexivity| |exact B]. fold p.
        eapply good_at; [exact GB|lia| |lia]. unfold plain in PL. lia.
  - (* and / or *)
    cbn [well_formed] in WF. apply andb_true_iff in WF. destruct WF as [W2 WF]. apply Nat.leb_le in W2.
    set (p := bool_prec o).
    assert (P23 : p = 2 \/ p = 3) by (subst p; destruct o; cbn; auto).
    assert (LO : level_op p = o) by (subst p; destruct o; reflexivity).
    set (T := fun v => wrap p (prec v) false (as_string v)).
    assert (GV : forall v, List.In v vs -> good (T v) (norm v) (if wraps p (prec v) false then 15 else prec v)).
    { intros v Hin. apply good_wrap. rewrite Forall_forall in IHvs. apply (IHvs v Hin). rewrite forallb_forall in WF. auto. }
    assert (IT : forall v, p < (if wraps p (prec v) false then 15 else prec v) -> items o (norm v) = [norm v]).
    { intros v K. rewrite <- (norm_prec v) in K. destruct (norm v) as [| | | |o' l'| | | | | |]; try reflexivity. cbn [items].
      destruct (boolop_eqb o o') eqn:E; [|reflexivity]. exfalso. assert (o = o') by (destruct o, o'; congruence || discriminate). subst o'.
      cbn [prec] in K. fold p in K. unfold wraps in K. rewrite Nat.ltb_irrefl, Nat.eqb_refl in K. cbn in K. lia. }
    assert (tail : forall ws rest vs' r', (forall v, List.In v ws -> List.In v vs) -> cont rest <= p -> Bl p rest vs' r' ->
       Bl p (flat_map (fun v => bool_token o :: T v) ws ++ rest) (flat_map (fun v => items o (norm v)) ws ++ vs') r').
    { induction ws as [|v ws IH]; intros rest vs' r' SUB C B; [exact B|].
      cbn [flat_map]. rewrite <- !app_assoc. cbn [List.app]. 
      specialize (IH rest vs' r' (fun u H => SUB u (or_intror H)) C B).
      set (rest1 := flat_map (fun v0 => bool_token o :: T v0) ws ++ rest) in *.
      assert (C1 : cont rest1 <= p) by (subst rest1; destruct ws; [exact C|cbn [flat_map List.app]; subst p; destruct o; cbn; lia]).
      destruct (good_items _ _ _ p rest1 _ _ (GV v (SUB v (or_introl eq_refl))) P23 (wraps_level p (prec v) false ltac:(lia)) C1 IH) as (a & r1 & vs1 & A1 & A2 & A3).
      { rewrite LO. apply IT. }
      rewrite LO in A3. fold (@List.app expr). rewrite A3. 
      subst p. apply bl_more with (r := r1); assumption. }
    destruct vs as [|v1 [|v2 vs]]; [cbn in W2; lia|cbn in W2; lia|].
    assert (TXT : as_string (BoolOp o (v1 :: v2 :: vs)) = T v1 ++ flat_map (fun v => bool_token o :: T v) (v2 :: vs)).
    { cbn [as_string prec]. fold p. fold T. generalize (v2 :: vs). intro ws. revert v1 GV tail IHvs WF W2. clear.
      intros v1 _ _ _ _ _. revert v1. induction ws as [|w ws IH]; intro v1; cbn [map sep_by flat_map]; [symmetry; apply app_nil_r|].
      cbn [map sep_by] in IH. rewrite IH. reflexivity. }
    assert (G1 : good (T v1) (norm v1) (if wraps p (prec v1) false then 15 else prec v1)) by (apply GV; left; reflexivity).
    assert (NONEMPTY : forall v, List.In v (v1 :: v2 :: vs) -> items o (norm v) <> []).
    { intros v Hin K. pose proof (GV v Hin) as G. rewrite <- (norm_prec v) in G. destruct (norm v) as [| | | |o' l'| | | | | |]; try discriminate K.
      cbn [items] in K. destruct (boolop_eqb o o') eqn:E; [|discriminate]. subst l'. assert (o = o') by (destruct o, o'; congruence || discriminate). subst o'.
      cbn [prec] in G. fold p in G. unfold wraps in G. rewrite Nat.ltb_irrefl, Nat.eqb_refl in G. cbn [orb andb] in G.
      pose proof (g_core _ _ _ G []) as GC. unfold good_core in GC.
      destruct P23 as [E1|E1]; rewrite E1 in GC; destruct GC as (l & E2 & L2 & _); injection E2 as _ E3; subst l; cbn in L2; lia. }
    split.
    + cbn [prec]. fold p. lia.
    + cbn [prec]. fold p. lia.
    + rewrite TXT. intro K. apply app_eq_nil in K. exact (g_ne _ _ _ G1 (proj1 K)).
    + cbn [prec]. fold p. lia.
    + cbn [prec]. fold p. lia.
    + intro rest. rewrite TXT. cbn [prec norm]. fold p.
      assert (CORE : exists l, BoolOp o (flat_map (fun v => items o (norm v)) (v1 :: v2 :: vs)) = BoolOp (level_op p) l /\ 2 <= length l /\
        (cont rest <= p -> forall vs0 r', Bl p rest vs0 r' ->
          exists a r1 vs1, Pr (S p) ((T v1 ++ flat_map (fun v => bool_token o :: T v) (v2 :: vs)) ++ rest) a r1 /\ Bl p r1 vs1 r' /\ l ++ vs0 = a :: vs1)).
      { rewrite LO. eexists. split; [reflexivity|]. split.
        - cbn [flat_map]. rewrite !app_length. pose proof (NONEMPTY v1 ltac:(left; reflexivity)) as N1. pose proof (NONEMPTY v2 ltac:(right; left; reflexivity)) as N2.
          destruct (items o (norm v1)); [congruence|]. destruct (items o (norm v2)); [congruence|]. cbn [length]. lia.
        - intros C vs0 r' B. rewrite <- app_assoc.
          pose proof (tail (v2 :: vs) rest vs0 r' (fun u H => or_intror H) C B) as TL.
          assert (C1 : cont (flat_map (fun v => bool_token o :: T v) (v2 :: vs) ++ rest) <= p)
            by (cbn [flat_map List.app]; clear; subst p; destruct o; cbn; lia).
          destruct (good_items _ _ _ p _ _ _ G1 P23 (wraps_level p (prec v1) false ltac:(lia)) C1 TL) as (a & r1 & vs1 & A1 & A2 & A3).
          { rewrite LO. apply IT. }
          exists a, r1, vs1. split; [exact A1|]. split; [exact A2|]. rewrite LO in A3. cbn [flat_map] in *. rewrite <- app_assoc. exact A3. }
      clearbody p T. clear - P23 CORE. destruct P23 as [-> | ->]; exact CORE.
  - (* comparison *)
    cbn [well_formed] in WF. apply andb_true_iff in WF. destruct WF as [WF WO]. apply andb_true_iff in WF. destruct WF as [W1 WA]. apply Nat.leb_le in W1.
    specialize (IHa WA). set (T := fun v => wrap 5 (prec v) true (as_string v)).
    set (N := fun cv : cmpop * expr => (fst cv, norm (snd cv))).
    pose proof (good_wrap 5 (prec a) false _ _ IHa) as GA. pose proof (wraps_level 5 (prec a) false ltac:(lia)) as KA.
    assert (tail : forall ws rest vs' r', (forall v, List.In v ws -> List.In v ops) -> cont rest <= 5 -> Rl rest vs' r' ->
       Rl (concat (map (fun cv => cmp_tokens (fst cv) ++ T (snd cv)) ws) ++ rest) (map N ws ++ vs') r').
    { induction ws as [|[c v] ws IH]; intros rest vs' r' SUB C B; [exact B|].
      cbn [map concat fst snd]. rewrite <- !app_assoc. cbn [List.app].
      specialize (IH rest vs' r' (fun u H => SUB u (or_intror H)) C B).
      assert (G : good (T v) (norm v) (if wraps 5 (prec v) true then 15 else prec v)).
      { apply good_wrap. rewrite Forall_forall in IHops. apply (IHops (c, v) (SUB _ (or_introl eq_refl))). rewrite forallb_forall in WO.
        apply (WO (c, v)). apply SUB. left. reflexivity. }
      pose proof (wraps_level_same 5 (prec v) ltac:(lia)) as K.
      eapply rl_more; [|eapply good_at; [exact G|lia|lia|]|exact IH].
      - rewrite starts_app by exact (g_ne _ _ _ G). apply (g_not _ _ _ G). lia.
      - destruct ws as [|[c' v'] ws]; [cbn [map concat List.app]; lia|]. cbn [map concat fst snd]. rewrite <- !app_assoc, cont_cmp. lia. }
    set (ts := concat (map (fun cv => cmp_tokens (fst cv) ++ T (snd cv)) ops)) in *.
    assert (TXT : as_string (Compare a ops) = wrap 5 (prec a) false (as_string a) ++ ts) by reflexivity.
    cbn [norm]. fold N.
    assert (RES : (if Nat.eqb (if wraps 5 (prec a) false then 15 else prec a) 5 then onto (norm a) (map N ops) else Compare (norm a) (map N ops)) = onto (norm a) (map N ops)).
    { destruct (Nat.eqb_spec (if wraps 5 (prec a) false then 15 else prec a) 5) as [|NE5]; [reflexivity|].
      rewrite <- (norm_prec a) in NE5. destruct (norm a); try reflexivity. exfalso. apply NE5. reflexivity. }
    destruct ops as [|cv ops]; [cbn in W1; lia|].
    split; cbn [prec]; try lia.
    + rewrite TXT. intro K. apply app_eq_nil in K. exact (g_ne _ _ _ GA (proj1 K)).
    + intros _. rewrite TXT, starts_app by exact (g_ne _ _ _ GA). apply (g_not _ _ _ GA). lia.
    + intro rest. destruct (onto_compare (norm a) (map N (cv :: ops))) as (a' & l' & E). rewrite E. exists a', l'. split; [reflexivity|].
      intros C ops' r' B. rewrite TXT, <- app_assoc.
      pose proof (tail (cv :: ops) rest ops' r' (fun u H => H) C B) as TL. fold ts in TL.
      assert (C5 : cont (ts ++ rest) <= 5) by (subst ts; destruct cv; cbn [map concat fst snd]; rewrite <- !app_assoc, cont_cmp; lia).
      assert (NE : map N (cv :: ops) ++ ops' <> []) by discriminate.
      pose proof (good_rel _ _ _ _ _ _ GA KA C5 TL NE) as R.
      assert (E' : (if Nat.eqb (if wraps 5 (prec a) false then 15 else prec a) 5 then onto (norm a) (map N (cv :: ops) ++ ops') else Compare (norm a) (map N (cv :: ops) ++ ops')) = Compare a' (l' ++ ops')).
      { destruct (Nat.eqb _ 5).
        - apply onto_app. exact E.
        - rewrite E in RES. injection RES as E1 E2. rewrite E1. cbn [map]. rewrite E2. reflexivity. }
      rewrite E' in R. exact R.
  - (* call *)
    cbn [well_formed] in WF. apply andb_true_iff in WF. destruct WF as [WG WA]. specialize (IHg WG).
    pose proof (good_wrap 15 (prec g) false _ _ IHg) as GG.
    assert (E15 : (if wraps 15 (prec g) false then 15 else prec g) = 15).
    { pose proof (wraps_level 15 (prec g) false ltac:(lia)) as K. pose proof (prec_range g). destruct (wraps 15 (prec g) false); lia. }
    rewrite E15 in GG.
    split; cbn [prec as_string norm]; try lia.
    + intro K. apply app_eq_nil in K. exact (g_ne _ _ _ GG (proj1 K)).
    + intros _. rewrite starts_app by exact (g_ne _ _ _ GG). apply (g_not _ _ _ GG). lia.
    + intros _. rewrite starts_app by exact (g_ne _ _ _ GG). apply (g_prefix _ _ _ GG). lia.
    + intros rest e'' r' TR. rewrite <- app_assoc. eapply good_tr; [exact GG|]. cbn [List.app]. rewrite <- app_assoc. cbn [List.app].
      destruct args as [|v args]; [apply tr_call0; exact TR|].
      eapply tr_call; [|exact TR].
      clear TR GG E15 IHg WG. revert v IHargs WA. induction args as [|v' args IH]; intros v IHargs WA.
      * cbn [map sep_by]. inversion IHargs as [|? ? Q1 _]; subst. cbn [forallb] in WA. apply andb_true_iff in WA. destruct WA as [WA _].
        apply ar_one; [|exact I]. eapply good_at; [exact (Q1 WA)|pose proof (prec_range v); lia|lia|cbn; lia].
      * inversion IHargs as [|? ? Q1 Q2]; subst. cbn [forallb] in WA. apply andb_true_iff in WA. destruct WA as [WA WR].
        cbn [map sep_by]. cbn [map sep_by] in IH. rewrite <- app_assoc. cbn [List.app]. eapply ar_more; [|apply IH; assumption].
        eapply good_at; [exact (Q1 WA)|pose proof (prec_range v); lia|lia|cbn; lia].
  - (* attribute *)
    cbn [well_formed] in WF. specialize (IHa WF).
    assert (GA : good (match a with Const (CInt _) => paren (as_string a) | _ => wrap 15 (prec a) false (as_string a) end) (norm a) 15).
    { pose proof (good_wrap 15 (prec a) false _ _ IHa) as G.
      assert (E15 : (if wraps 15 (prec a) false then 15 else prec a) = 15).
      { pose proof (wraps_level 15 (prec a) false ltac:(lia)) as K. pose proof (prec_range a). destruct (wraps 15 (prec a) false); lia. }
      rewrite E15 in G. destruct a as [|c| | | | | | | | |]; try exact G. destruct c; try exact G. eapply good_paren. exact IHa. }
    split; cbn [prec as_string norm]; try lia.
    + intro K. apply app_eq_nil in K. destruct K as [_ K]. discriminate.
    + intros _. rewrite starts_app by exact (g_ne _ _ _ GA). apply (g_not _ _ _ GA). lia.
    + intros _. rewrite starts_app by exact (g_ne _ _ _ GA). apply (g_prefix _ _ _ GA). lia.
    + intros rest e'' r' TR. rewrite <- app_assoc. eapply good_tr; [exact GA|]. cbn [List.app]. apply tr_attr. exact TR.
  - (* subscript *)
    cbn [well_formed] in WF. apply andb_true_iff in WF. destruct WF as [WG WI]. specialize (IHa WG). specialize (IHi WI).
    pose proof (good_wrap 15 (prec a) false _ _ IHa) as GG.
    assert (E15 : (if wraps 15 (prec a) false then 15 else prec a) = 15).
    { pose proof (wraps_level 15 (prec a) false ltac:(lia)) as K. pose proof (prec_range a). destruct (wraps 15 (prec a) false); lia. }
    rewrite E15 in GG.
    split; cbn [prec as_string norm]; try lia.
    + intro K. apply app_eq_nil in K. exact (g_ne _ _ _ GG (proj1 K)).
    + intros _. rewrite starts_app by exact (g_ne _ _ _ GG). apply (g_not _ _ _ GG). lia.
    + intros _. rewrite starts_app by exact (g_ne _ _ _ GG). apply (g_prefix _ _ _ GG). lia.
    + intros rest e'' r' TR. rewrite <- app_assoc. eapply good_tr; [exact GG|]. cbn [List.app]. rewrite <- app_assoc. cbn [List.app].
      eapply tr_sub; [|exact TR]. eapply good_at; [exact IHi|pose proof (prec_range i); lia|lia|cbn; lia].
  - (* conditional *)
    cbn [well_formed] in WF. apply andb_true_iff in WF. destruct WF as [WF WB]. apply andb_true_iff in WF. destruct WF as [WC WA].
    specialize (IHa WA). specialize (IHb WB). specialize (IHc WC).
    pose proof (good_wrap 1 (prec a) true _ _ IHa) as GA. pose proof (good_wrap 1 (prec c) true _ _ IHc) as GC.
    pose proof (wraps_level_same 1 (prec a) ltac:(lia)) as KA. pose proof (wraps_level_same 1 (prec c) ltac:(lia)) as KC.
    apply good_own_intro; cbn [prec as_string norm]; try lia.
    + intro K. apply app_eq_nil in K. exact (g_ne _ _ _ GA (proj1 K)).
    + intros rest C. rewrite <- !app_assoc. cbn [List.app].
      eapply p_if.
      * eapply good_at; [exact GA|lia|lia|cbn; lia].
      * eapply good_at; [exact GC|lia|lia|cbn; lia].
      * eapply good_at; [exact IHb|pose proof (prec_range b); lia|lia|exact C].
  - split; cbn [prec]; try lia; try reflexivity; try discriminate. intros rest e'' r' T. apply p_other. exact T.
Qed.

Theorem reads_as_string e : well_formed e = true -> reads (as_string e) (norm e).
Proof.
  intro WF. pose proof (good_at _ _ _ 1 [] (round e WF) ltac:(pose proof (prec_range e); lia) ltac:(lia) ltac:(cbn; lia)) as H.
  rewrite app_nil_r in H. exact H.
Qed.

(** ** The expression read back has the same value *)
Section Values.
  Context {W : Type}.
  Variable P : python W.
  Implicit Types m : comp (W := W) value.

  Definition eqc {A} (m m' : comp (W := W) A) : Prop := forall w, m w = m' w.
  Lemma eqc_refl {A} (m : comp A) : eqc m m. Proof. intro; reflexivity. Qed.
  Lemma eqc_trans {A} (a b c : comp (W := W) A) : eqc a b -> eqc b c -> eqc a c.
  Proof. intros H K w. rewrite H. apply K. Qed.
  Lemma eqc_sym {A} (a b : comp (W := W) A) : eqc a b -> eqc b a.
  Proof. intros H w. symmetry. apply H. Qed.
  Lemma andthen_eq {A B} (m m' : comp (W := W) A) (k k' : A -> comp B) :
    eqc m m' -> (forall a, eqc (k a) (k' a)) -> eqc (andthen m k) (andthen m' k').
  Proof. intros H K w. unfold andthen. rewrite H. destruct (m' w) as [w' [a|e]]; [apply K|reflexivity]. Qed.
  Lemma andthen_assoc {A B C} (m : comp (W := W) A) (k : A -> comp B) (h : B -> comp C) :
    eqc (andthen (andthen m k) h) (andthen m (fun a => andthen (k a) h)).
  Proof. intro w. unfold andthen. destruct (m w) as [w' [a|e]]; reflexivity. Qed.
  Lemma andthen_pure {A B} (a : A) (k : A -> comp (W := W) B) : eqc (andthen (pure a) k) (k a).
  Proof. intro w. reflexivity. Qed.
  Lemma andthen_ret {A} (m : comp (W := W) A) : eqc (andthen m pure) m.
  Proof. intro w. unfold andthen. destruct (m w) as [w' [a|e]]; reflexivity. Qed.

  Definition neutral (o : boolop) : bool := match o with And => true | Or => false end.
  Fixpoint shortcut (o : boolop) (ms : list (comp (W := W) value)) : comp value :=
    match ms with
    | [] => pure (VBool (neutral o))
    | m :: r =>
        match r with
        | [] => m
        | _ => andthen m (fun v => andthen (truth P v) (fun b => if Bool.eqb b (neutral o) then shortcut o r else pure v))
        end
    end.
  Fixpoint chain (l : list (cmpop * comp (W := W) value)) (v : value) : comp value :=
    match l with
    | [] => pure v
    | (c, m) :: r =>
        andthen m (fun u =>
          match r with
          | [] => compare P c v u
          | _ => andthen (compare P c v u) (fun x => andthen (truth P x) (fun t => if t then chain r u else pure x))
          end)
    end.
  Fixpoint sequence (l : list (comp (W := W) value)) : comp (list value) :=
    match l with
    | [] => pure []
    | a :: r => andthen a (fun v => andthen (sequence r) (fun vs => pure (v :: vs)))
    end.

  Lemma eval_bool o vs : eval P (BoolOp o vs) = shortcut o (map (eval P) vs).
  Proof.
    cbn [eval]. induction vs as [|a r IH]; [reflexivity|]. cbn [map shortcut]. destruct r as [|b r]; [reflexivity|].
    rewrite <- IH. reflexivity.
  Qed.
  Lemma eval_compare a ops : eval P (Compare a ops) = andthen (eval P a) (chain (map (fun cv => (fst cv, eval P (snd cv))) ops)).
  Proof.
    cbn [eval]. f_equal. induction ops as [|[c b] r IH]; [reflexivity|]. cbn [map chain fst snd]. rewrite <- IH.
    destruct r as [|[c' b'] r]; reflexivity.
  Qed.
  Lemma eval_call f args : eval P (Call f args) = andthen (eval P f) (fun g => andthen (sequence (map (eval P) args)) (call P g)).
  Proof.
    cbn [eval]. 
    assert (E : forall l, (fix go (l : list expr) : comp (list value) :=
             match l with
             | [] => pure []
             | a :: r => andthen (eval P a) (fun v => andthen (go r) (fun vs => pure (v :: vs)))
             end) l = sequence (map (eval P) l)).
    { induction l as [|a r IH]; [reflexivity|]. cbn [map sequence]. rewrite <- IH. reflexivity. }
    rewrite E. reflexivity.
  Qed.

  Lemma shortcut_eq o l l' : Forall2 eqc l l' -> eqc (shortcut o l) (shortcut o l').
  Proof.
    induction 1 as [|a b r s H F IH]; [apply eqc_refl|]. cbn [shortcut]. destruct r, s; try inversion F; [exact H|].
    apply andthen_eq; [exact H|]. intro v. apply andthen_eq; [apply eqc_refl|]. intro t. destruct (Bool.eqb t (neutral o)); [exact IH|apply eqc_refl].
  Qed.
  Lemma chain_eq l l' : Forall2 (fun x y => fst x = fst y /\ eqc (snd x) (snd y)) l l' -> forall v, eqc (chain l v) (chain l' v).
  Proof.
    induction 1 as [|[c a] [c' b] r s [H1 H2] F IH]; intro v; [apply eqc_refl|]. cbn [chain]. cbn in H1, H2. subst c'.
    apply andthen_eq; [exact H2|]. intro u. destruct r, s; try inversion F; [apply eqc_refl|].
    apply andthen_eq; [apply eqc_refl|]. intro bx. apply andthen_eq; [apply eqc_refl|]. intros []; [apply IH|apply eqc_refl].
  Qed.
  Lemma sequence_eq l l' : Forall2 eqc l l' -> eqc (sequence l) (sequence l').
  Proof.
    induction 1 as [|a b r s H F IH]; [apply eqc_refl|]. cbn [sequence]. apply andthen_eq; [exact H|]. intro v.
    apply andthen_eq; [exact IH|]. intro; apply eqc_refl.
  Qed.

  Definition gate o (rest : comp (W := W) value) (v : value) : comp value :=
    andthen (truth P v) (fun b => if Bool.eqb b (neutral o) then rest else pure v).
  Lemma truth_state v w : fst (truth P v w) = w.
  Proof. reflexivity. Qed.
  Lemma shortcut_app o l rest : l <> [] -> rest <> [] -> eqc (shortcut o (l ++ rest)) (andthen (shortcut o l) (gate o (shortcut o rest))).
  Proof.
    intros NE NR. induction l as [|a l IH]; [congruence|]. destruct l as [|b l].
    - cbn [List.app shortcut]. destruct rest as [|c rest]; [congruence|]. apply eqc_refl.
    - specialize (IH ltac:(discriminate)). set (l1 := b :: l) in *.
      assert (E : shortcut o (a :: l1) = andthen a (fun v => andthen (truth P v) (fun t => if Bool.eqb t (neutral o) then shortcut o l1 else pure v))) by reflexivity.
      assert (E' : shortcut o ((a :: l1) ++ rest) = andthen a (fun v => andthen (truth P v) (fun t => if Bool.eqb t (neutral o) then shortcut o (l1 ++ rest) else pure v))) by reflexivity.
      rewrite E, E'. apply eqc_sym. eapply eqc_trans; [apply andthen_assoc|]. apply andthen_eq; [apply eqc_refl|]. intro v.
      intro w. unfold andthen at 1 3. unfold andthen at 1.
      destruct (truth P v w) as [w' t] eqn:T. assert (w' = w) by (pose proof (truth_state v w) as K; rewrite T in K; exact K). subst w'.
      destruct t as [t|x]; [|reflexivity]. destruct (Bool.eqb t (neutral o)) eqn:B.
      + rewrite (IH w). reflexivity.
      + cbn [pure]. unfold gate, andthen. rewrite T, B. reflexivity.
  Qed.
  Lemma shortcut_cons o a rest : rest <> [] -> eqc (shortcut o (a :: rest)) (andthen a (gate o (shortcut o rest))).
  Proof. intro NR. apply (shortcut_app o [a] rest); [discriminate|exact NR]. Qed.

  Lemma items_value o e : eqc (shortcut o (map (eval P) (items o e))) (eval P e).
  Proof.
    destruct e; try apply eqc_refl. cbn [items]. destruct (boolop_eqb o o0) eqn:E; [|apply eqc_refl].
    assert (o = o0) by (destruct o, o0; congruence || discriminate). subst o0. rewrite eval_bool. apply eqc_refl.
  Qed.

  Theorem norm_value e : well_formed e = true -> no_nested_compare e = true -> eqc (eval P (norm e)) (eval P e).
  Proof.
    induction e as [x|c|o a IHa|o a b IHa IHb|o vs IHvs|a ops IHa IHops|g args IHg IHargs|a x IHa|a i IHa IHi|c a b IHc IHa IHb|n] using expr_ind'; intros WF NC;
      cbn [well_formed no_nested_compare] in WF, NC; try apply eqc_refl.
    - cbn [norm eval]. apply andthen_eq; [auto|]. intro; apply eqc_refl.
    - apply andb_true_iff in WF, NC. cbn [norm eval]. apply andthen_eq; [apply IHa; tauto|]. intro v. apply andthen_eq; [apply IHb; tauto|]. intro; apply eqc_refl.
    - apply andb_true_iff in WF. destruct WF as [W2 WF]. cbn [norm]. rewrite !eval_bool.
      assert (NE : forall v, List.In v vs -> items o (norm v) <> []).
      { intros v Hin K. rewrite forallb_forall in WF. specialize (WF v Hin). pose proof (round v WF) as G. rewrite <- norm_prec in G.
        destruct (norm v) as [| | | |o' l'| | | | | |]; try discriminate K. cbn [items] in K. destruct (boolop_eqb o o'); [|discriminate].
        subst l'. pose proof (g_core _ _ _ G []) as GC. cbn [prec] in GC. unfold good_core in GC.
        destruct o'; cbn [bool_prec] in GC; destruct GC as (l & E2 & L2 & _); injection E2 as E3; subst l; cbn in L2; lia. }
      clear W2. induction vs as [|v vs IH]; [apply eqc_refl|].
      inversion IHvs as [|? ? Q1 Q2]; subst. cbn [forallb] in WF, NC. apply andb_true_iff in WF, NC. destruct WF as [W1 W3], NC as [N1 N3].
      specialize (IH Q2 W3 N3 (fun u H => NE u (or_intror H))).
      cbn [norm flat_map map] in *. rewrite map_app.
      assert (V : eqc (shortcut o (map (eval P) (items o (norm v)))) (eval P v)) by (eapply eqc_trans; [apply items_value|apply Q1; assumption]).
      assert (IE : map (eval P) (items o (norm v)) <> []).
      { intro K. apply (NE v (or_introl eq_refl)). destruct (items o (norm v)); [reflexivity|discriminate]. }
      destruct vs as [|v' vs].
      + cbn [flat_map map]. rewrite app_nil_r. exact V.
      + assert (RE : map (eval P) (flat_map (fun v => items o (norm v)) (v' :: vs)) <> []).
        { intro K. apply (NE v' (or_intror (or_introl eq_refl))). cbn [flat_map] in K. destruct (items o (norm v')); [reflexivity|discriminate]. }
        eapply eqc_trans; [apply shortcut_app; assumption|].
        eapply eqc_trans; [|apply eqc_sym; apply shortcut_cons; discriminate].
        apply andthen_eq; [exact V|]. intro u. unfold gate. apply andthen_eq; [apply eqc_refl|]. intro t. destruct (Bool.eqb t (neutral o)); [exact IH|apply eqc_refl].
    - apply andb_true_iff in WF, NC. destruct WF as [WF W3], NC as [NC N3]. apply andb_true_iff in WF, NC. destruct WF as [W1 W2], NC as [N1 N2].
      assert (NCM : onto (norm a) (map (fun cv => (fst cv, norm (snd cv))) ops) = Compare (norm a) (map (fun cv => (fst cv, norm (snd cv))) ops)).
      { pose proof (norm_prec a) as E. destruct (norm a); try reflexivity. destruct a; cbn in E, N1; try discriminate; destruct o; cbn in E; discriminate. }
      cbn [norm]. rewrite NCM. rewrite !eval_compare. apply andthen_eq; [auto|]. apply chain_eq. rewrite map_map. cbn [fst snd].
      clear - IHops W3 N3. induction ops as [|[c v] ops IH]; [constructor|]. inversion IHops as [|? ? Q1 Q2]; subst.
      cbn [forallb snd] in *. apply andb_true_iff in W3, N3. cbn [map fst snd]. constructor; [cbn; split; [reflexivity|apply Q1; tauto]|apply IH; tauto].
    - apply andb_true_iff in WF, NC. cbn [norm]. rewrite !eval_call. apply andthen_eq; [apply IHg; tauto|]. intro v. apply andthen_eq; [|intro; apply eqc_refl].
      apply sequence_eq. rewrite map_map. destruct WF as [_ WF], NC as [_ NC]. clear - IHargs WF NC.
      induction args as [|a args IH]; [constructor|]. inversion IHargs as [|? ? Q1 Q2]; subst. cbn [forallb] in *. apply andb_true_iff in WF, NC.
      cbn [map]. constructor; [apply Q1; tauto|apply IH; tauto].
    - cbn [norm eval]. apply andthen_eq; [auto|]. intro; apply eqc_refl.
    - apply andb_true_iff in WF, NC. cbn [norm eval]. apply andthen_eq; [apply IHa; tauto|]. intro v. apply andthen_eq; [apply IHi; tauto|]. intro; apply eqc_refl.
    - apply andb_true_iff in WF, NC. destruct WF as [WF W3], NC as [NC N3]. apply andb_true_iff in WF, NC.
      cbn [norm eval]. apply andthen_eq; [apply IHc; tauto|]. intro v. apply andthen_eq; [apply eqc_refl|]. intros []; [apply IHa|apply IHb]; tauto.
  Qed.
End Values.

Theorem printed_same e : well_formed e = true -> no_nested_compare e = true -> exists e', reads (as_string e) e' /\ same e' e.
Proof. intros WF NC. exists (norm e). split; [apply reads_as_string; exact WF|]. intros W P w. apply norm_value; assumption. Qed.
