(** Proofs about the analysis of blocks: what the translation produces, names of variables after writes, environments. *)
From Coq Require Import String List Bool Arith NArith ZArith QArith Qabs Qround Lia.
From Verif Require Import Base PyModel PySpec PyProofs IfModel IfSpec IfProofs FoldModel FoldSpec FoldProofs TypeModel LocalModel LocalSpec LocalProofs LetterProofs MergeSpec SolverModel SolverSpec SolverProofs BlockModel BlockSpec BlockProofs.
Import ListNotations.
Local Open Scope string_scope.
Local Open Scope list_scope.
Local Open Scope nat_scope.

(** ** What the translation produces *)
Fixpoint no_real (z : zexpr) : bool :=
  match z with
  | ZVar _ _ | ZBool _ | ZInt _ => true
  | ZReal _ | ZOver _ _ => false
  | ZAbs a | ZNeg a | ZNot a | ZMod a _ | ZQuot a _ => no_real a
  | ZAdd a b | ZSub a b | ZMul a b | ZRel _ a b => no_real a && no_real b
  | ZAnd l | ZOr l => forallb no_real l
  end.
Lemma no_real_rename cur z : no_real (rename cur z) = no_real z.
Proof.
  induction z using zexpr_ind'; cbn [rename no_real]; try reflexivity; try exact IHz; try (rewrite IHz1, IHz2; reflexivity).
  all: induction H as [|x l X F IH]; [reflexivity|]; cbn [map forallb]; rewrite X, IH; reflexivity.
Qed.
Section Produced.
  Variables (H : host) (d : variables).
  Definition keys (k : text) : Prop := find_var d k <> None /\ exists s, k = as_string s.
  Definition product (e : expr) (z : zexpr) : Prop := over_vars keys z /\ (no_fraction e = true -> no_real z = true).
  Lemma to_bool_inv e bp z r : fst (to_bool e bp (Some z)) = Some r -> r = z \/ r = ZRel Ne z (ZInt 0).
  Proof. cbn [to_bool]. destruct (bp && _); cbn [fst]; intro X; injection X as <-; auto. Qed.
  Lemma to_bool_product e bp z r : product e z -> fst (to_bool e bp (Some z)) = Some r -> product e r.
  Proof.
    intros [O N] T. destruct (to_bool_inv _ _ _ _ T) as [-> | ->]; split; auto.
    - cbn [over_vars proper]. auto.
    - intro F. cbn [no_real]. rewrite (N F). reflexivity.
  Qed.
  Lemma variable_product e bp z c : as_variable d bp e = Ok (Some z, c) -> product e z.
  Proof.
    unfold as_variable. destruct (find_var d (as_string e)) as [int|] eqn:F; [|discriminate]. intro X.
    apply (to_bool_product e bp (ZVar (as_string e) int)); [|destruct (to_bool e bp (Some (ZVar (as_string e) int))); cbn [fst]; congruence].
    split; [|reflexivity]. cbn [over_vars]. split; [congruence|exists e; reflexivity].
  Qed.
  Lemma convert_product e : forall bp z c, convert H d bp e = Ok (Some z, c) -> product e z.
  Proof.
    induction e as [x|k|o a IHa|o a b IHa IHb|o vs IHvs|a ops IHa IHops|g args IHg IHargs|a x IHa|a i IHa IHi|t a b IHt IHa IHb|n] using expr_ind'; intros bp z c C.
    - exact (variable_product _ _ _ _ C).
    - cbn [convert] in C. destruct k as [|k|k|k|k]; cbn [convert_const] in C; try discriminate;
        match type of C with Ok (to_bool ?e ?b (Some ?y)) = _ => apply (to_bool_product e b y); [|destruct (to_bool e b (Some y)); cbn [fst]; congruence] end;
        split; cbn [over_vars no_real no_fraction]; auto.
    - cbn [convert] in C. destruct (convert H d (is_bool_node (Unary o a)) a) as [[[y|] cy]|] eqn:A; cbn [bind fst snd] in C; try discriminate.
      destruct (IHa _ _ _ A) as [O N].
      match type of C with Ok (fst (to_bool ?e ?b (Some ?y)), _) = _ => apply (to_bool_product e b y); [|congruence] end.
      split; [destruct o; exact O|]. intro F. cbn [no_fraction] in F. destruct o; exact (N F).
    - cbn [convert] in C. destruct (nonlinear H (Binary o a b)) as [[]|]; cbn [bind] in C; [exact (variable_product _ _ _ _ C)| |discriminate].
      destruct (convert H d false a) as [[l cl]|] eqn:A; cbn [bind fst snd] in C; [|discriminate].
      assert (PA : forall x, l = Some x -> product a x) by (intros x ->; exact (IHa _ _ _ A)).
      destruct o; try (destruct l; discriminate).
      + destruct (convert H d false b) as [[r cr]|] eqn:B; cbn [bind fst snd] in C; [|discriminate]. destruct l as [x|]; [|discriminate]. destruct r as [y|]; [|discriminate].
        destruct (PA x eq_refl) as [O1 N1], (IHb _ _ _ B) as [O2 N2].
        match type of C with Ok (fst (to_bool ?e ?b (Some ?y)), _) = _ => apply (to_bool_product e b y); [|congruence] end.
        split; [split; assumption|]. cbn [no_fraction no_real]. intro F. apply andb_true_iff in F. destruct F as [F F2]. cbn in F. rewrite (N1 F), (N2 F2). reflexivity.
      + destruct (convert H d false b) as [[r cr]|] eqn:B; cbn [bind fst snd] in C; [|discriminate]. destruct l as [x|]; [|discriminate]. destruct r as [y|]; [|discriminate].
        destruct (PA x eq_refl) as [O1 N1], (IHb _ _ _ B) as [O2 N2].
        match type of C with Ok (fst (to_bool ?e ?b (Some ?y)), _) = _ => apply (to_bool_product e b y); [|congruence] end.
        split; [split; assumption|]. cbn [no_fraction no_real]. intro F. apply andb_true_iff in F. destruct F as [F F2]. cbn in F. rewrite (N1 F), (N2 F2). reflexivity.
      + destruct (convert H d false b) as [[r cr]|] eqn:B; cbn [bind fst snd] in C; [|discriminate]. destruct l as [x|]; [|discriminate]. destruct r as [y|]; [|discriminate].
        destruct (PA x eq_refl) as [O1 N1], (IHb _ _ _ B) as [O2 N2].
        match type of C with Ok (fst (to_bool ?e ?b (Some ?y)), _) = _ => apply (to_bool_product e b y); [|congruence] end.
        split; [split; assumption|]. cbn [no_fraction no_real]. intro F. apply andb_true_iff in F. destruct F as [F F2]. cbn in F. rewrite (N1 F), (N2 F2). reflexivity.
      + destruct l as [x|]; [|discriminate]. destruct (PA x eq_refl) as [O1 N1]. destruct (convert_by_constant H Div x b) as [[y|]|] eqn:K; cbn [bind] in C; try discriminate.
        match type of C with Ok (fst (to_bool ?e ?b (Some ?y)), _) = _ => apply (to_bool_product e b y); [|congruence] end.
        unfold convert_by_constant in K. destruct (get_const_value H b) as [[]|]; cbn [bind] in K; try discriminate; injection K as <-; (split; [exact O1|]); cbn [no_fraction andb]; discriminate.
      + destruct l as [x|]; [|discriminate]. destruct (PA x eq_refl) as [O1 N1]. destruct (is_int_term x); [|discriminate]. destruct (convert_by_constant H FloorDiv x b) as [[y|]|] eqn:K; cbn [bind] in C; try discriminate.
        match type of C with Ok (fst (to_bool ?e ?b (Some ?y)), _) = _ => apply (to_bool_product e b y); [|congruence] end.
        unfold convert_by_constant in K. destruct (get_const_value H b) as [[]|]; cbn [bind] in K; try discriminate; injection K as <-; (split; [exact O1|]); cbn [no_fraction no_real andb]; intro F; apply N1; destruct (no_fraction a); [reflexivity|discriminate|reflexivity|discriminate].
      + destruct l as [x|]; [|discriminate]. destruct (PA x eq_refl) as [O1 N1]. destruct (is_int_term x); [|discriminate]. destruct (convert_by_constant H Mod x b) as [[y|]|] eqn:K; cbn [bind] in C; try discriminate.
        match type of C with Ok (fst (to_bool ?e ?b (Some ?y)), _) = _ => apply (to_bool_product e b y); [|congruence] end.
        unfold convert_by_constant in K. destruct (get_const_value H b) as [[]|]; cbn [bind] in K; try discriminate. destruct (Z.ltb 1 z0); try discriminate. injection K as <-. (split; [exact O1|]); cbn [no_fraction no_real andb]; intro F; apply N1; destruct (no_fraction a); [reflexivity|discriminate].
    - rewrite convert_bool in C. destruct (convert_all H d vs) as [[[zs c']|]|] eqn:A; cbn [bind] in C; try discriminate.
      assert (X : Forall (over_vars keys) zs /\ (forallb no_fraction vs = true -> forallb no_real zs = true)).
      { clear C. revert zs c' A. induction IHvs as [|e l X F IH]; intros zs c' A; cbn [convert_all] in A; [injection A as <- <-; split; [constructor|reflexivity]|].
        destruct (convert H d true e) as [[[y|] cy]|] eqn:B; cbn [bind fst snd] in A; try discriminate.
        destruct (convert_all H d l) as [[[ys c2]|]|]; cbn [bind] in A; try discriminate. injection A as <- _. destruct (IH ys c2 eq_refl) as [O N]. destruct (X _ _ _ B) as [O1 N1].
        split; [constructor; assumption|]. cbn [forallb]. intro G. apply andb_true_iff in G. destruct G as [G1 G2]. rewrite (N1 G1), (N G2). reflexivity. }
      destruct X as [O N]. assert (Z : z = match o with And => ZAnd zs | Or => ZOr zs end) by congruence. subst z.
      split; [destruct o; apply fold_and_Forall; exact O|]. intro F. destruct o; exact (N F).
    - cbn [convert] in C. destruct (convert H d false a) as [[l cl]|] eqn:A; cbn [bind fst snd] in C; [|discriminate]. destruct ops as [|[op b] ops]; [discriminate|].
      destruct (convert H d false b) as [[r cr]|] eqn:B; cbn [bind fst snd] in C; [|discriminate]. destruct l as [x|]; [|discriminate]. destruct r as [y|]; [|discriminate].
      inversion IHops as [|? ? IHb _]; subst. cbn [snd] in IHb. destruct (IHa _ _ _ A) as [O1 N1], (IHb _ _ _ B) as [O2 N2].
      assert (Z : z = ZRel op x y /\ proper op = true) by (destruct op; cbn [convert_rel] in C; try discriminate; split; (reflexivity || congruence)).
      destruct Z as [-> PR]. split; [cbn [over_vars]; auto|]. cbn [no_fraction no_real forallb snd]. intro F. apply andb_true_iff in F. destruct F as [F1 F2]. apply andb_true_iff in F2. destruct F2 as [F2 _].
      rewrite (N1 F1), (N2 F2). reflexivity.
    - rewrite convert_call in C. destruct (is_abs g); [|exact (variable_product _ _ _ _ C)]. destruct args as [|a args]; [discriminate|].
      destruct (convert H d false a) as [[[y|] cy]|] eqn:A; cbn [bind fst snd] in C; try discriminate. inversion IHargs as [|? ? IHa _]; subst. destruct (IHa _ _ _ A) as [O N].
      match type of C with Ok (fst (to_bool ?e ?b (Some ?y)), _) = _ => apply (to_bool_product e b y); [|congruence] end.
      split; [exact O|]. cbn [no_fraction forallb no_real]. intro F. apply N. destruct (no_fraction g), (no_fraction a); try discriminate; reflexivity.
    - exact (variable_product _ _ _ _ C).
    - exact (variable_product _ _ _ _ C).
    - discriminate C.
    - discriminate C.
  Qed.
End Produced.

(** ** Names after writes *)
Lemma wrap_neg o i s t : ~ List.In TNegOpen t -> ~ List.In TNegOpen (wrap o i s t).
Proof. intro N. unfold wrap, paren. destruct (_ || _); [|exact N]. intros [X|X]; [discriminate|]. apply in_app_or in X. destruct X as [X|[X|[]]]; [exact (N X)|discriminate]. Qed.
Lemma sep_neg s l : ~ List.In TNegOpen s -> Forall (fun t => ~ List.In TNegOpen t) l -> ~ List.In TNegOpen (sep_by s l).
Proof.
  intros N F. induction F as [|t l T F IH]; [intros []|]. cbn [sep_by]. destruct l as [|t' l]; [exact T|].
  rewrite !in_app_iff. intros [X|[X|X]]; [exact (T X)|exact (N X)|exact (IH X)].
Qed.
Lemma text_no_neg e : ~ List.In TNegOpen (as_string e).
Proof.
  induction e as [x|k|o a IHa|o a b IHa IHb|o vs IHvs|a ops IHa IHops|g args IHg IHargs|a x IHa|a i IHa IHi|t a b IHt IHa IHb|n] using expr_ind'; cbn [as_string].
  - intros [X|[]]; discriminate.
  - intros [X|[]]; discriminate.
  - intros [X|X]; [destruct o; discriminate|]. exact (wrap_neg _ _ _ _ IHa X).
  - rewrite !in_app_iff. intros [X|[[X|[]]|X]]; [exact (wrap_neg _ _ _ _ IHa X)|discriminate|exact (wrap_neg _ _ _ _ IHb X)].
  - apply sep_neg; [intros [X|[]]; destruct o; discriminate|]. rewrite Forall_map. refine (Forall_impl _ _ IHvs). intros v N. apply wrap_neg. exact N.
  - rewrite in_app_iff. intros [X|X]; [exact (wrap_neg _ _ _ _ IHa X)|]. induction IHops as [|cv l N F IH]; [exact X|]. cbn [map concat] in X. rewrite !in_app_iff in X.
    destruct X as [[X|X]|X]; [|exact (wrap_neg _ _ _ _ N X)|exact (IH X)]. destruct (fst cv); cbn in X; repeat (destruct X as [X|X]; try discriminate); exact X.
  - rewrite in_app_iff. cbn [List.In]. rewrite in_app_iff. intros [X|[X|[X|[X|[]]]]]; try discriminate; [exact (wrap_neg _ _ _ _ IHg X)|].
    revert X. apply sep_neg; [intros [X|[]]; discriminate|]. rewrite Forall_map. exact IHargs.
  - rewrite in_app_iff. intros [X|[X|[X|[]]]]; try discriminate. destruct a as [|[]| | | | | | | | |]; try exact (wrap_neg _ _ _ _ IHa X).
    unfold paren in X. cbn in X. repeat (destruct X as [X|X]; try discriminate). exact X.
  - rewrite in_app_iff. cbn [List.In]. rewrite in_app_iff. intros [X|[X|[X|[X|[]]]]]; try discriminate; [exact (wrap_neg _ _ _ _ IHa X)|exact (IHi X)].
  - rewrite !in_app_iff. intros [X|[[X|[]]|[X|[[X|[]]|X]]]]; try discriminate; [exact (wrap_neg _ _ _ _ IHa X)|exact (wrap_neg _ _ _ _ IHt X)|exact (IHb X)].
  - intros [X|[]]; discriminate.
Qed.
Lemma prefixed_inj s s' n n' : prefixed (as_string s) n = prefixed (as_string s') n' -> as_string s = as_string s' /\ n = n'.
Proof.
  destruct n as [|n], n' as [|n']; cbn [prefixed]; intro X.
  - split; [exact X|reflexivity].
  - exfalso. apply (text_no_neg s). rewrite X. left. reflexivity.
  - exfalso. apply (text_no_neg s'). rewrite <- X. left. reflexivity.
  - injection X as X Y. split; [exact Y|]. lia.
Qed.
(** The names given so far. *)
Definition old (cnt : counts) (k : text) : Prop := exists s n, k = prefixed (as_string s) n /\ n <= cnt (as_string s).
Definition known (cnt : counts) (z : zexpr) : Prop := over_vars (old cnt) z.
Definition le (c c' : counts) : Prop := forall k, c k <= c' k.
Lemma old_le c c' k : le c c' -> old c k -> old c' k.
Proof. intros L (s & n & E & X). exists s, n. split; [exact E|]. specialize (L (as_string s)). lia. Qed.
Lemma known_le c c' z : le c c' -> known c z -> known c' z.
Proof. intro L. apply over_vars_impl. intro k. apply old_le. exact L. Qed.
Lemma le_refl' c : le c c. Proof. intro k. lia. Qed.
Lemma le_trans' a b c : le a b -> le b c -> le a c. Proof. intros X Y k. specialize (X k). specialize (Y k). lia. Qed.
Lemma fresh cnt x : ~ old cnt (prefixed [TName x] (S (cnt [TName x]))).
Proof.
  intros (s & n & E & L). change [TName x] with (as_string (Name x)) in E. apply prefixed_inj in E. destruct E as [E1 E2]. rewrite <- E1 in L. cbn [as_string] in L. rewrite <- E2 in L. cbn [as_string] in L. lia.
Qed.

(** ** Environments of integers *)
Definition env (f : text -> Z) : environment := {| int_var := f; real_var := fun k => inject_Z (f k); quot0 := fun _ => 0%Z; over0 := fun q => q |}.
Definition agree (cnt : counts) (f g : text -> Z) : Prop := forall k, old cnt k -> g k = f k.
Lemma agree_refl c f : agree c f f. Proof. intros k _. reflexivity. Qed.
Lemma agree_trans c c' f g h : le c c' -> agree c f g -> agree c' g h -> agree c f h.
Proof. intros L A B k O. rewrite (B k (old_le c c' k L O)). exact (A k O). Qed.
Lemma zeval_agree c f g z : agree c f g -> known c z -> zeval (env g) z = zeval (env f) z.
Proof.
  intros A K. apply (zeval_ext (env g) (env f) (old c)); try reflexivity; [|exact K]. intros k O. cbn [env int_var real_var]. rewrite (A k O). split; reflexivity.
Qed.
Definition setf (f : text -> Z) (k : text) (n : Z) : text -> Z := fun k' => if text_eqb k' k then n else f k'.
Lemma setf_same f k n : setf f k n k = n.
Proof. unfold setf. rewrite text_eqb_refl. reflexivity. Qed.
Lemma setf_other f k n k' : k' <> k -> setf f k n k' = f k'.
Proof. intro N. unfold setf. destruct (text_eqb k' k) eqn:E; [|reflexivity]. apply text_eqb_eq in E. congruence. Qed.
Lemma agree_fresh c f x n : agree c f (setf f (prefixed [TName x] (S (c [TName x]))) n).
Proof. intros k O. apply setf_other. intros ->. exact (fresh c x O). Qed.
Lemma whole_number f z q : no_real z = true -> zeval (env f) z = Some (ZN q) -> exists n, (q == inject_Z n)%Q.
Proof.
  revert q. induction z using zexpr_ind'; cbn [no_real zeval]; intros q N E; try discriminate.
  - injection E as <-. exists (f k). destruct i; reflexivity.
  - injection E as <-. eexists. reflexivity.
  - destruct (zeval (env f) z) as [[p|]|]; cbn [znumber] in E; try discriminate. injection E as <-. destruct (IHz p N eq_refl) as (n & X). exists (Z.abs n). rewrite X. reflexivity.
  - destruct (zeval (env f) z) as [[p|]|]; cbn [znumber] in E; try discriminate. injection E as <-. destruct (IHz p N eq_refl) as (n & X). exists (- n)%Z. rewrite X. reflexivity.
  - destruct (zeval (env f) z) as [[p|]|]; discriminate.
  - apply andb_true_iff in N. destruct N as [N1 N2]. destruct (zeval (env f) z1) as [[p1|]|], (zeval (env f) z2) as [[p2|]|]; cbn [znumbers] in E; try discriminate.
    injection E as <-. destruct (IHz1 _ N1 eq_refl) as (n1 & X1), (IHz2 _ N2 eq_refl) as (n2 & X2). exists (n1 + n2)%Z. rewrite X1, X2, inject_Z_plus. reflexivity.
  - apply andb_true_iff in N. destruct N as [N1 N2]. destruct (zeval (env f) z1) as [[p1|]|], (zeval (env f) z2) as [[p2|]|]; cbn [znumbers] in E; try discriminate.
    injection E as <-. destruct (IHz1 _ N1 eq_refl) as (n1 & X1), (IHz2 _ N2 eq_refl) as (n2 & X2). exists (n1 - n2)%Z. rewrite X1, X2. unfold Z.sub, Qminus. rewrite inject_Z_plus, inject_Z_opp. reflexivity.
  - apply andb_true_iff in N. destruct N as [N1 N2]. destruct (zeval (env f) z1) as [[p1|]|], (zeval (env f) z2) as [[p2|]|]; cbn [znumbers] in E; try discriminate.
    injection E as <-. destruct (IHz1 _ N1 eq_refl) as (n1 & X1), (IHz2 _ N2 eq_refl) as (n2 & X2). exists (n1 * n2)%Z. rewrite X1, X2, inject_Z_mult. reflexivity.
  - destruct (zeval (env f) z) as [[p|]|]; cbn [znumber] in E; try discriminate. injection E as <-. eexists. reflexivity.
  - destruct (zeval (env f) z) as [[p|]|]; cbn [znumber] in E; try discriminate. injection E as <-. eexists. reflexivity.
  - destruct (zeval (env f) z1) as [[p1|]|], (zeval (env f) z2) as [[p2|]|]; cbn [znumbers] in E; try discriminate. destruct (zcompare c p1 p2); discriminate.
  - unfold ztruths in E. destruct (fold_right _ _ _); discriminate.
  - unfold ztruths in E. destruct (fold_right _ _ _); discriminate.
Qed.

(** ** Terms that are conditions *)
Definition condition (c : counts) (z : zexpr) : Prop := known c z /\ sort_of z = Some SBool.
Lemma condition_le c c' z : le c c' -> condition c z -> condition c' z.
Proof. intros L [K S1]. split; [exact (known_le c c' z L K)|exact S1]. Qed.
Lemma condition_value c z f : condition c z -> exists b, zeval (env f) z = Some (ZB b).
Proof. intros [K S1]. destruct (zeval_defined (env f) z (old c) K SBool S1) as ([|b] & V & X); [contradiction|]. exists b. exact V. Qed.
Lemma condition_not c z : condition c z -> condition c (ZNot z).
Proof. intros [K S1]. split; [exact K|]. cbn [sort_of]. rewrite S1. reflexivity. Qed.
Lemma conditions_sorted c l : Forall (condition c) l -> forallb (fun z => match sort_of z with Some SBool => true | _ => false end) l = true.
Proof. induction 1 as [|z l [_ S1] F IH]; [reflexivity|]. cbn [forallb]. rewrite S1. exact IH. Qed.
Lemma conditions_known c l : Forall (condition c) l -> fold_right and True (map (over_vars (old c)) l).
Proof. intro F. apply fold_and_Forall. refine (Forall_impl _ _ F). intros z [K _]. exact K. Qed.
Lemma condition_and c l : Forall (condition c) l -> condition c (ZAnd l).
Proof. intro F. split; [exact (conditions_known c l F)|]. cbn [sort_of]. rewrite (conditions_sorted c l F). reflexivity. Qed.
Lemma condition_or c l : Forall (condition c) l -> condition c (ZOr l).
Proof. intro F. split; [exact (conditions_known c l F)|]. cbn [sort_of]. rewrite (conditions_sorted c l F). reflexivity. Qed.
Lemma condition_implies' c a b : condition c a -> condition c b -> condition c (z_implies a b).
Proof. intros A B. apply condition_or. constructor; [apply condition_not; exact A|]. constructor; [exact B|constructor]. Qed.
Lemma value_not E z b : zeval E z = Some (ZB b) -> zeval E (ZNot z) = Some (ZB (negb b)).
Proof. intro V. cbn [zeval]. rewrite V. reflexivity. Qed.
Lemma value_implies E a b p q : zeval E a = Some (ZB p) -> zeval E b = Some (ZB q) -> zeval E (z_implies a b) = Some (ZB (implb p q)).
Proof.
  intros A B. unfold z_implies. cbn [zeval]. rewrite (ztruths_eval E [ZNot a; b] [negb p; q]).
  - cbn [existsb]. rewrite orb_false_r. destruct p, q; reflexivity.
  - constructor; [apply value_not; exact A|]. constructor; [exact B|constructor].
Qed.
Lemma value_and E l bs : Forall2 (fun z b => zeval E z = Some (ZB b)) l bs -> zeval E (ZAnd l) = Some (ZB (forallb (fun b => b) bs)).
Proof. intro F. cbn [zeval]. exact (ztruths_eval E l bs _ F). Qed.
Lemma value_or E l bs : Forall2 (fun z b => zeval E z = Some (ZB b)) l bs -> zeval E (ZOr l) = Some (ZB (existsb (fun b => b) bs)).
Proof. intro F. cbn [zeval]. exact (ztruths_eval E l bs _ F). Qed.
Lemma conditions_values c l f : Forall (condition c) l -> exists bs, Forall2 (fun z b => zeval (env f) z = Some (ZB b)) l bs.
Proof.
  induction 1 as [|z l C F IH]; [exists []; constructor|]. destruct IH as (bs & X), (condition_value c z f C) as (b & V). exists (b :: bs). constructor; assumption.
Qed.
