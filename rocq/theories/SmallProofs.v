(** Proofs about augmented assignments, comparisons with bools, appending and negated conditions. *)
From Coq Require Import String Ascii List Bool Arith NArith ZArith Lia.
From Verif Require Import Base PyModel PySpec PyProofs IfModel IfSpec IfProofs FoldModel FoldSpec FoldProofs TypeModel LocalModel LocalSpec TextProofs LocalProofs LetterProofs.
Import ListNotations.
Local Open Scope string_scope.
Local Open Scope list_scope.

(** ** Augmented assignments *)
Lemma norm_name x : norm (Name x) = Name x.
Proof. reflexivity. Qed.
Lemma name_text x a : fine a = true -> text_eqb (as_string (Name x)) (as_string a) = true -> norm a = Name x.
Proof. intros F E. symmetry. apply (same_text_norm (Name x) a); [reflexivity|exact F|exact E]. Qed.
Lemma norm_is_name a x : norm a = Name x -> a = Name x.
Proof. destruct a; cbn; try discriminate; auto. destruct (norm a); discriminate. Qed.
Lemma exec_assigned {W} (P : program W) x v s w : assigned x v s ->
  exec P s w = andthen (eval (py P) v) (fun r => andthen (store_name P x r) (fun _ => pure Next)) w.
Proof.
  intros [-> | ->]; cbn [exec each store]; [|reflexivity]. unfold andthen. destruct (eval (py P) v w) as [w1 [r|]]; [|reflexivity].
  destruct (store_name P x r w1) as [w2 [[]|]]; reflexivity.
Qed.
Lemma augmentable_cases guess x v s t o p : assigned x v s -> augmentable guess s = Ok (Some (t, o, p)) ->
  t = [TName x] /\ exists a b, v = Binary o a b /\
    ((text_eqb (as_string (Name x)) (as_string a) = true /\ p = as_string b) \/
     (text_eqb (as_string (Name x)) (as_string b) = true /\ commutes o = true /\ p = as_string a)).
Proof.
  intros A E. assert (E' : match v with Binary o a b => match guess v with None => None | Some ts => if any_mutable ts then None
      else if text_eqb (as_string (Name x)) (as_string a) then Some (as_string (Name x), o, as_string b)
      else if commutes o && text_eqb (as_string (Name x)) (as_string b) && negb (any_container ts) then Some (as_string (Name x), o, as_string a) else None end
    | _ => None end = Some (t, o, p)).
  { destruct A as [-> | ->]; unfold augmentable in E; [destruct v; try discriminate E|]; injection E as E; exact E. }
  clear E. destruct v as [| | |o' a b| | | | | | |]; try discriminate. destruct (guess _) as [ts|]; [|discriminate]. destruct (any_mutable ts); [discriminate|].
  destruct (text_eqb (as_string (Name x)) (as_string a)) eqn:T1.
  - injection E' as <- <- <-. split; [reflexivity|]. exists a, b. auto.
  - destruct (commutes o') eqn:C; [|discriminate]. destruct (text_eqb (as_string (Name x)) (as_string b)) eqn:T2; [|discriminate]. destruct (any_container ts); [discriminate|].
    injection E' as <- <- <-. split; [reflexivity|]. exists a, b. auto.
Qed.
Lemma commuted {W} (P : python W) o v u i j w : commutes o = true -> as_int v = Some i -> as_int u = Some j -> binary P o v u w = binary P o u v w.
Proof.
  intros C A B. unfold binary. rewrite A, B. destruct o; try discriminate C; cbn [int_op].
  all: first [rewrite (Z.add_comm i j)|rewrite (Z.mul_comm i j)|rewrite (Z.lor_comm i j)|rewrite (Z.land_comm i j)]; destruct v, u; reflexivity.
Qed.
Theorem augmented_same guess x v s t o p : assigned x v s -> augmentable guess s = Ok (Some (t, o, p)) -> fine v = true ->
  t = [TName x] /\ exists e, reads p e /\ forall W (P : program W) inplace w,
    (forall v u w, inplace o v u w = binary (py P) o v u w) ->
    (forall a, v = Binary o (Name x) a -> augmented P inplace x o e w = exec P s w) /\
    (forall a i j, v = Binary o a (Name x) -> is_int (py P) w a i -> is_int (py P) w (Name x) j -> augmented P inplace x o e w = exec P s w).
Proof.
  intros A E F. destruct (augmentable_cases guess x v s t o p A E) as (-> & a & b & -> & C). split; [reflexivity|].
  assert (FB : fine a = true /\ fine b = true).
  { destruct (fine_split _ F) as [W1 N1]. cbn [well_formed no_nested_compare] in W1, N1. apply andb_true_iff in W1, N1. unfold fine. rewrite (proj1 W1), (proj2 W1), (proj1 N1), (proj2 N1). auto. }
  destruct FB as [FA FB].
  destruct C as [[T ->]|(T & C & ->)].
  - exists (norm b). destruct (fine_split b FB) as [WB _]. split; [apply reads_as_string; exact WB|]. intros W P inplace w IP.
    pose proof (norm_is_name _ _ (name_text x a FA T)) as ->.
    assert (FST : augmented P inplace x o (norm b) w = exec P s w).
    { rewrite (exec_assigned P x _ s w A). unfold augmented. cbn [eval]. unfold andthen, pure. destruct (lookup (py P) x w) as [r|]; [|reflexivity].
      rewrite (norm_same b FB W (py P) w). destruct (eval (py P) b w) as [w1 [u|]]; [|reflexivity]. rewrite IP. reflexivity. }
    split; intros; exact FST.
  - exists (norm a). destruct (fine_split a FA) as [WA _]. split; [apply reads_as_string; exact WA|]. intros W P inplace w IP.
    pose proof (norm_is_name _ _ (name_text x b FB T)) as ->.
    assert (SND : forall i j, is_int (py P) w a i -> is_int (py P) w (Name x) j -> augmented P inplace x o (norm a) w = exec P s w).
    { intros i j (v & GV & IV) (u & GU & IU). rewrite (exec_assigned P x _ s w A). unfold augmented. unfold gives in *. unfold andthen at 1. rewrite GU.
      unfold andthen at 1. rewrite (norm_same a FA W (py P) w), GV. unfold andthen at 1 3. rewrite IP. rewrite (eval_binary (py P) w o a (Name x) v u GV GU).
      rewrite (commuted (py P) o v u i j w C IV IU). reflexivity. }
    split.
    + intros a' EQ. assert (EA : a = Name x) by congruence. clear EQ. subst a. (* the name on both sides *)
      rewrite (exec_assigned P x _ s w A). unfold augmented. cbn [norm eval]. unfold andthen, pure. destruct (lookup (py P) x w) as [r|]; [|reflexivity].
      rewrite IP. reflexivity.
    + intros a' i j EQ IA IX. injection EQ as ->. exact (SND i j IA IX).
Qed.

(** ** Comparisons with True and False *)
Lemma is_compare {W} (P : python W) w c x b v : has_is P -> gives P w x v -> c = Is \/ c = IsNot ->
  let r := match v with VBool b' => Bool.eqb b b' | _ => false end in
  gives P w (Compare x [(c, Const (CBool b))]) (VBool (match c with Is => r | _ => negb r end)).
Proof.
  intros HI G C r. unfold gives. rewrite (eval_compare1 P w c x (Const (CBool b)) v (VBool b) G eq_refl). unfold compare. destruct (HI v b w) as [H1 H2].
  destruct C as [-> | ->]; cbn [as_int]; destruct v; cbn [as_int decide]; try exact H1; try exact H2.
Qed.
Theorem no_is_same x c val t : no_is x [(c, val)] = [t] -> fine x = true -> Nat.leb 4 (prec x) = true ->
  exists e, reads t e /\ forall W (P : python W) w b, has_is P -> gives P w x (VBool b) ->
    exists r, gives P w e (VBool r) /\ gives P w (Compare x [(c, val)]) (VBool r).
Proof.
  intros E F L. cbn [no_is] in E. rewrite app_nil_r in E. destruct (fine_split x F) as [WX _]. pose proof (round x WX) as G. apply Nat.leb_le in L.
  assert (C : c = Is \/ c = IsNot) by (unfold no_is_one in E; destruct c; try discriminate E; auto).
  assert (V : exists k, val = Const (CBool k)).
  { unfold no_is_one in E. destruct C as [-> | ->]; (destruct val as [|k| | | | | | | | |]; try discriminate E; destruct k; try discriminate E; eauto). }
  destruct V as (k & ->). set (plain := match c with Is => k | _ => negb k end).
  assert (T : t = if plain then as_string x else TNot :: as_string x) by (unfold plain; destruct C as [-> | ->]; destruct k; injection E as <-; reflexivity).
  exists (if plain then norm x else Unary Not (norm x)). split.
  - rewrite T. destruct plain; [apply reads_as_string; exact WX|]. eapply reads_good, good_not; [exact G|exact L].
  - intros W P w b HI GX. pose proof (norm_gives P w x _ F GX) as GN. exists (if plain then b else negb b). split.
    + destruct plain; [exact GN|]. unfold gives in *. cbn [eval]. unfold andthen. rewrite GN. reflexivity.
    + pose proof (is_compare P w c x k (VBool b) HI GX C) as R. cbv zeta in R.
      replace (if plain then b else negb b) with (match c with Is => Bool.eqb k b | _ => negb (Bool.eqb k b) end); [exact R|]. unfold plain. destruct C as [-> | ->]; destruct k, b; reflexivity.
Qed.

(** ** Appending *)
Theorem append_same method args x : extend method args = Some x -> method = "extend" /\ exists es, args = [Some es] /\ forall value items l,
  match x with
  | Single _ => appended value items l x = Ok (extended value items l es)
  | Starred e => List.length (items e) = 1 -> appended value items l x = Ok (extended value items l es)
  end.
Proof.
  unfold extend. destruct args as [|[[|y [|]]|] [|]]; try discriminate. destruct (String.eqb method "extend") eqn:M; [|discriminate]. intro E. injection E as ->.
  apply String.eqb_eq in M. split; [exact M|]. exists [x]. split; [reflexivity|]. intros value items l. unfold extended, appended. cbn [flat_map]. rewrite app_nil_r.
  destruct x as [e|e]; [reflexivity|]. destruct (items e) as [|v [|]]; try discriminate. reflexivity.
Qed.
Theorem append_augmented_same o value0 x : augassign_extend o value0 = Some x -> o = Add /\ exists es, value0 = Some es /\ forall value items l,
  match x with
  | Single _ => appended value items l x = Ok (extended value items l es)
  | Starred e => List.length (items e) = 1 -> appended value items l x = Ok (extended value items l es)
  end.
Proof.
  unfold augassign_extend. destruct o; try discriminate. destruct value0 as [[|y [|]]|]; try discriminate. intro E. injection E as ->. split; [reflexivity|].
  exists [x]. split; [reflexivity|]. intros value items l. unfold extended, appended. cbn [flat_map]. rewrite app_nil_r.
  destruct x as [e|e]; [reflexivity|]. destruct (items e) as [|v [|]]; try discriminate. reflexivity.
Qed.
Lemma starred_refuted : exists method args e, extend method args = Some (Starred e) /\ exists value items l es, args = [Some es] /\
  extended value items l es = l ++ [VInt 1; VInt 2] /\ appended value items l (Starred e) = Raise TypeError.
Proof.
  exists "extend", [Some [Starred (Name "xs")]], (Name "xs"). split; [reflexivity|]. exists (fun _ => VNone), (fun _ => [VInt 1; VInt 2]), [], [Starred (Name "xs")].
  split; [reflexivity|]. split; reflexivity.
Qed.

(** ** Multiplied lists *)
Theorem multiplied_total o a b : a = None \/ b = None -> exists r, multiplied_list o a b = Ok r /\
  (r = true <-> o = Mul /\ exists l x, (a = Some l \/ b = Some l) /\ List.In x l /\ (x = Display \/ exists f, x = CallOf f /\ List.In f ["list"; "set"; "dict"])).
Proof.
  intro N.
  assert (M : forall l, existsb is_mutable l = true <-> exists x, List.In x l /\ (x = Display \/ exists f, x = CallOf f /\ List.In f ["list"; "set"; "dict"])).
  { intro l. rewrite existsb_exists. split; intros (x & I & K); exists x; (split; [exact I|]).
    - destruct x as [|f|]; [auto| |discriminate]. right. exists f. split; [reflexivity|]. cbn [is_mutable] in K. apply existsb_exists in K. destruct K as (y & Y & E). apply String.eqb_eq in E. subst. exact Y.
    - destruct K as [->|(f & -> & K)]; [reflexivity|]. cbn [is_mutable]. apply existsb_exists. exists f. split; [exact K|apply String.eqb_refl]. }
  assert (NO : forall r : bool, o <> Mul -> r = false -> (r = true <-> o = Mul /\ exists l x, (a = Some l \/ b = Some l) /\ List.In x l /\ (x = Display \/ exists f, x = CallOf f /\ List.In f ["list"; "set"; "dict"]))).
  { intros r O ->. split; [discriminate|]. intros [O' _]. contradiction. }
  destruct o; try (exists false; split; [reflexivity|]; apply NO; [discriminate|reflexivity]).
  destruct a as [l|], b as [l'|]; try (destruct N; discriminate).
  - exists (existsb is_mutable l). split; [reflexivity|]. rewrite M. split.
    + intros (x & I & K). split; [reflexivity|]. exists l, x. auto.
    + intros (_ & l0 & x & [E|E] & I & K); [injection E as <-|discriminate]. exists x. auto.
  - exists (existsb is_mutable l'). split; [reflexivity|]. rewrite M. split.
    + intros (x & I & K). split; [reflexivity|]. exists l', x. auto.
    + intros (_ & l0 & x & [E|E] & I & K); [discriminate|injection E as <-]. exists x. auto.
  - exists false. split; [reflexivity|]. split; [discriminate|]. intros (_ & l0 & x & [E|E] & _); discriminate.
Qed.

(** ** Negated conditions *)
Theorem redundant_elif_same H c b c2 b2 o2 ms : redundant_elif H c [If c2 b2 o2] = Ok ms -> ms <> [] ->
  is_negation H c c2 false = Ok true /\ (List.In UnreachableElse ms <-> o2 <> []) /\ List.In RedundantElif ms /\
  forall W (P : program W) w, opposite (py P) w c c2 ->
    exec P (If c b [If c2 b2 o2]) w = exec P (If c b b2) w /\ forall o3, exec P (If c b [If c2 b2 o3]) w = exec P (If c b [If c2 b2 o2]) w.
Proof.
  intros E N. unfold redundant_elif in E. destruct (is_negation H c c2 false) as [n|]; [|discriminate]. cbn [bind] in E. injection E as <-.
  destruct n; [|congruence]. split; [reflexivity|]. split; [|split].
  - destruct o2 as [|s o2]; cbn; split; intro K; try congruence; [destruct K as [K|[]]; discriminate|auto].
  - left. reflexivity.
  - intros W P w (t & T1 & T2).
    assert (B : forall o3, exec P (If c b [If c2 b2 o3]) w = block P (if t then b else b2) w).
    { intro o3. change (andthen (test (py P) c) (fun t0 => block P (if t0 then b else [If c2 b2 o3])) w = block P (if t then b else b2) w).
      unfold andthen at 1. rewrite T1. destruct t; [reflexivity|].
      change (andthen (andthen (test (py P) c2) (fun t0 => block P (if t0 then b2 else o3))) (fun f => match f with Next => pure Next | _ => pure f end) w = block P b2 w).
      unfold andthen. rewrite T2. cbn [negb]. destruct (block P b2 w) as [w1 [f|]]; [|reflexivity]. destruct f; reflexivity. }
    split; [|intro o3; rewrite !B; reflexivity].
    rewrite B. change (block P (if t then b else b2) w = andthen (test (py P) c) (fun t0 => block P (if t0 then b else b2)) w). unfold andthen. rewrite T1. destruct t; reflexivity.
Qed.
