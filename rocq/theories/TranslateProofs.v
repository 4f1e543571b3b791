(** Lemmas about translations. *)
From Coq Require Import String Ascii List Bool Arith Lia Decimal DecimalNat DecimalString.
From Verif Require Import Base ConfigModel ConfigFileModel RegexModel LintModel TweakSpec TweakProofs TranslateModel TranslateSpec.
Import ListNotations.
Local Open Scope string_scope.
Local Open Scope list_scope.

(** ** Matching *)

Lemma star_sound : forall A cls (k : string -> option A) s g x, star cls k s = Some (g, x) ->
  exists t, s = (g ++ t)%string /\ all_in cls g /\ k t = Some x.
Proof.
  induction s as [|c s IH]; intros g x H; cbn [star] in H.
  - destruct (k "") eqn:K; [|discriminate]. inversion H; subst. exists ""%string. cbn. auto.
  - destruct (if cls c then star cls k s else None) as [[g' a]|] eqn:S.
    + inversion H; subst. destruct (cls c) eqn:C; [|discriminate]. destruct (IH _ _ S) as [t [-> [A1 A2]]].
      exists t. cbn. auto.
    + destruct (k (String c s)) eqn:K; [|discriminate]. inversion H; subst. exists (String c s). cbn. auto.
Qed.
Lemma star_complete : forall A cls (k : string -> option A) g t x, all_in cls g -> k t = Some x ->
  exists y, star cls k (g ++ t) = Some y.
Proof.
  induction g as [|c g IH]; intros t x P K.
  - cbn [append]. destruct t as [|c t]; cbn [star]; rewrite K; [eauto|]. destruct (if cls c then _ else _) as [[? ?]|]; eauto.
  - destruct P as [P1 P2]. cbn [append star]. rewrite P1. destruct (IH t x P2 K) as [[g' y] ->]. eauto.
Qed.

Lemma hole_letter_iff : forall c, hole_letter c = true <-> In (lower_ascii c) ["r"; "s"; "d"]%char.
Proof.
  intros c. unfold hole_letter. rewrite existsb_exists. split.
  - intros [x [I E]]. apply Ascii.eqb_eq in E. now rewrite E.
  - intros I. exists (lower_ascii c). split; auto. apply Ascii.eqb_refl.
Qed.
Lemma all_in_lacks : forall c s, all_in (fun d => negb (Ascii.eqb d c)) s -> lacks c s.
Proof.
  induction s as [|d s IH]; intros H; [apply lacks_nil|]. destruct H as [H1 H2]. apply lacks_cons. split; auto.
  intros ->. rewrite Ascii.eqb_refl in H1. discriminate.
Qed.

(** Unfolding the pattern by the first characters of the message. *)
Definition starts_hole (m : string) : bool :=
  match m with String c (String d _) => Ascii.eqb c "%" && hole_letter d | _ => false end.
Lemma pattern_hole : forall c r, hole_letter c = true -> to_pattern (String "%" (String c r)) = CapStar any_char :: to_pattern r.
Proof. intros c r H. cbn [to_pattern]. now rewrite H. Qed.
Lemma pattern_char : forall c r, starts_hole (String c r) = false -> to_pattern (String c r) = Lit (String c "") :: to_pattern r.
Proof.
  intros c r H. destruct (Ascii.eqb_spec c "%") as [->|N].
  - destruct r as [|d r]; [reflexivity|]. cbn [starts_hole] in H. rewrite Ascii.eqb_refl in H. cbn [andb] in H.
    cbn [to_pattern]. now rewrite H.
  - destruct c as [[] [] [] [] [] [] [] []]; try reflexivity. congruence.
Qed.
Lemma pattern_ind : forall P : string -> Prop, P "" ->
  (forall c r, hole_letter c = true -> P r -> P (String "%" (String c r))) ->
  (forall c r, starts_hole (String c r) = false -> P r -> P (String c r)) -> forall m, P m.
Proof.
  intros P H0 H1 H2 m. remember (String.length m) as n eqn:L. revert m L.
  induction n as [n IH] using lt_wf_ind. intros [|c m] L; auto.
  destruct (starts_hole (String c m)) eqn:S.
  - destruct m as [|d m]; [discriminate|]. cbn [starts_hole] in S. apply andb_true_iff in S as [S1 S2].
    apply Ascii.eqb_eq in S1. subst c. apply H1; auto. apply (IH (String.length m)); auto. cbn [String.length] in L. lia.
  - apply H2; auto. apply (IH (String.length m)); auto. cbn [String.length] in L. lia.
Qed.
Lemma not_hole : forall c r, starts_hole (String c r) = false <->
  (c = "%"%char -> ~ exists x r', r = String x r' /\ In (lower_ascii x) ["r"; "s"; "d"]%char).
Proof.
  intros c r. split.
  - intros H -> [x [r' [-> I]]]. apply hole_letter_iff in I. cbn [starts_hole] in H. rewrite I, Ascii.eqb_refl in H. discriminate.
  - intros H. destruct r as [|d r]; [reflexivity|]. cbn [starts_hole]. destruct (Ascii.eqb_spec c "%") as [->|]; [|reflexivity].
    cbn [andb]. destruct (hole_letter d) eqn:D; auto. exfalso. apply H; auto. exists d, r. split; auto. now apply hole_letter_iff.
Qed.

(** As [splits], with a rest of the text. *)
Inductive starts : string -> list string -> string -> string -> Prop :=
| at_nil : forall rest, starts "" [] rest rest
| at_hole : forall c r s ss t rest, hole_letter c = true -> all_in any_char s -> starts r ss t rest ->
    rmatch true (to_pattern r) t = Some (ss, rest) ->
    (forall g u, (s ++ t)%string = (g ++ u)%string -> all_in any_char g -> rmatch true (to_pattern r) u <> None ->
       String.length g <= String.length s) ->
    starts (String "%" (String c r)) (s :: ss) (s ++ t) rest
| at_char : forall c d r ss t rest, starts_hole (String c r) = false ->
    same_letter c d -> starts r ss t rest -> starts (String c r) ss (String d t) rest.

Lemma star_longest : forall A cls (k : string -> option A) s g x, star cls k s = Some (g, x) ->
  forall g' u, s = (g' ++ u)%string -> all_in cls g' -> k u <> None -> String.length g' <= String.length g.
Proof.
  induction s as [|c s IH]; intros g x H g' u E P K.
  - destruct g'; [cbn; lia|discriminate].
  - cbn [star] in H. destruct g' as [|c' g']; [cbn; lia|]. cbn [append] in E. inversion E; subst. destruct P as [P1 P2].
    rewrite P1 in H. destruct (k u) as [y|] eqn:Y; [|congruence].
    destruct (star_complete _ cls k g' u y P2 Y) as [[g2 y2] S]. rewrite S in H. inversion H; subst.
    cbn [String.length]. apply le_n_S. eapply IH; eauto. congruence.
Qed.
Lemma match_starts : forall m text g e, rmatch true (to_pattern m) text = Some (g, e) -> starts m g text e.
Proof.
  induction m using pattern_ind; intros text g e M.
  - cbn [to_pattern rmatch] in M. inversion M. constructor.
  - rewrite pattern_hole in M by auto. cbn [rmatch] in M.
    destruct (star any_char _ text) as [[w [gs e']]|] eqn:S; [|discriminate]. inversion M; subst.
    pose proof (star_longest _ _ _ _ _ _ S) as L. apply star_sound in S as [t [-> [A K]]].
    apply at_hole; eauto.
  - rewrite pattern_char in M by auto. cbn [rmatch] in M.
    destruct text as [|d text]; [discriminate|]. cbn [strip_lit] in M. unfold char_eqb in M.
    destruct (Ascii.eqb_spec (lower_ascii c) (lower_ascii d)) as [E|]; [|discriminate].
    apply at_char; eauto.
Qed.
Lemma starts_splits : forall m g text e, starts m g text e -> e = ""%string -> splits m g text.
Proof.
  induction 1 as [rest|c r s ss t rest H A S IH M L|c d r ss t rest H E S IH]; intros ->.
  - constructor.
  - constructor; auto; [now apply hole_letter_iff|now apply all_in_lacks].
  - apply splits_char; auto. now apply not_hole.
Qed.
Lemma match_complete : forall m g text, splits m g text -> exists y, rmatch true (to_pattern m) text = Some y.
Proof.
  induction 1 as [|c r s ss t I L S IH|c d r ss t N E S IH].
  - cbn. eauto.
  - rewrite pattern_hole by now apply hole_letter_iff. cbn [rmatch]. destruct IH as [x K].
    destruct (star_complete _ any_char _ s t x (lacks_class _ _ L) K) as [[w [gs e]] ->]. eauto.
  - rewrite pattern_char by now apply not_hole. cbn [rmatch strip_lit]. unfold char_eqb.
    unfold same_letter in E. rewrite E, Ascii.eqb_refl. exact IH.
Qed.

(** The match reaches the end: the text ends with what follows the last hole. *)
Inductive tail_of : string -> string -> Prop :=
| tail_none : forall m, has_hole (to_pattern m) = false -> tail_of m m
| tail_hole : forall c r v, hole_letter c = true -> tail_of r v -> tail_of (String "%" (String c r)) v
| tail_char : forall c r v, starts_hole (String c r) = false -> has_hole (to_pattern r) = true -> tail_of r v ->
    tail_of (String c r) v.
Lemma length_app_s : forall a b, String.length (a ++ b) = String.length a + String.length b.
Proof. induction a; intros; cbn [append String.length]; [lia|]. rewrite IHa. lia. Qed.
Lemma app_suffix : forall a b u v, (a ++ b = u ++ v)%string -> String.length v <= String.length b ->
  exists x, b = (x ++ v)%string.
Proof.
  induction a as [|c a IH]; intros b u v E L.
  - exists u. exact E.
  - destruct u as [|d u].
    + cbn [append] in E. subst v. cbn [String.length] in L. rewrite length_app_s in L. lia.
    + cbn [append] in E. inversion E. eapply IH; eauto.
Qed.
Lemma tail_hole_inv : forall c r v, hole_letter c = true -> tail_of (String "%" (String c r)) v -> tail_of r v.
Proof.
  intros c r v H T. inversion T as [m N|c0 r0 v0 H0 T0|c0 r0 v0 N H0 T0]; subst; auto.
  - rewrite pattern_hole in N by auto. discriminate.
  - cbn [starts_hole] in N. rewrite H, Ascii.eqb_refl in N. discriminate.
Qed.
Lemma has_hole_char : forall c r, starts_hole (String c r) = false ->
  has_hole (to_pattern (String c r)) = has_hole (to_pattern r).
Proof. intros c r H. now rewrite pattern_char. Qed.
Lemma tail_char_inv : forall c r v, starts_hole (String c r) = false -> tail_of (String c r) v ->
  (has_hole (to_pattern r) = false /\ v = String c r) \/ (has_hole (to_pattern r) = true /\ tail_of r v).
Proof.
  intros c r v H T. inversion T as [m N|c0 r0 v0 H0 T0|c0 r0 v0 N H0 T0]; subst; auto.
  - rewrite has_hole_char in N by auto. auto.
  - cbn [starts_hole] in H. rewrite H0, Ascii.eqb_refl in H. discriminate.
Qed.
Lemma tail_no_hole : forall m v, tail_of m v -> has_hole (to_pattern v) = false.
Proof. induction 1; auto. Qed.
Lemma tail_self : forall m v, tail_of m v -> has_hole (to_pattern m) = false -> v = m.
Proof.
  induction 1 as [m N|c r v H T IH|c r v N H T IH]; intros X; auto.
  - rewrite pattern_hole in X by auto. discriminate.
  - rewrite has_hole_char in X by auto. congruence.
Qed.
Lemma starts_long : forall m g text e v, starts m g text e -> tail_of m v -> String.length v <= String.length text.
Proof.
  intros m g text e v S. revert v.
  induction S as [rest|c r s ss t rest H A S IH M L|c d r ss t rest H E S IH]; intros v T.
  - inversion T; subst; cbn; lia.
  - rewrite length_app_s. specialize (IH _ (tail_hole_inv _ _ _ H T)). lia.
  - destruct (tail_char_inv _ _ _ H T) as [[N ->]|[N T']].
    + cbn [String.length]. apply le_n_S. apply IH. now constructor.
    + cbn [String.length]. specialize (IH _ T'). lia.
Qed.
Lemma no_hole_match : forall r v, has_hole (to_pattern r) = false -> splits r [] v -> rmatch true (to_pattern r) v = Some ([], ""%string).
Proof.
  intros r v H S. remember [] as ss eqn:E. induction S as [|c r s ss t I L S IH|c d r ss t N X S IH].
  - reflexivity.
  - discriminate.
  - rewrite pattern_char in * by now apply not_hole. cbn [has_hole existsb orb] in H. cbn [rmatch strip_lit]. unfold char_eqb.
    unfold same_letter in X. rewrite X, Ascii.eqb_refl. now apply IH.
Qed.
Lemma splits_length : forall r v, splits r [] v -> has_hole (to_pattern r) = false -> String.length r = String.length v.
Proof.
  intros r v S. remember [] as ss eqn:E. induction S as [|c r s ss t I L S IH|c d r ss t N X S IH]; intros H.
  - reflexivity.
  - discriminate.
  - rewrite pattern_char in H by now apply not_hole. cbn [has_hole existsb orb] in H. cbn [String.length]. auto.
Qed.
Lemma same_suffix : forall a b u v, (a ++ b = u ++ v)%string -> String.length b = String.length v -> b = v.
Proof.
  intros a b u v E L. destruct (app_suffix a b u v E) as [[|c x] ->]; [lia|reflexivity|].
  cbn [append String.length] in L. rewrite length_app_s in L. lia.
Qed.
Lemma all_in_app : forall cls a b, all_in cls (a ++ b) <-> all_in cls a /\ all_in cls b.
Proof. induction a; intros; cbn [append all_in]; [tauto|]. rewrite IHa. tauto. Qed.
Lemma reaches_end : forall m g text e, starts m g text e -> has_hole (to_pattern m) = true -> all_in any_char text ->
  forall w u v, tail_of m w -> text = (u ++ v)%string -> splits w [] v -> e = ""%string.
Proof.
  induction 1 as [rest|c r s ss t rest H A S IH M L|c d r ss t rest H E S IH]; intros HH AT w u v T X W.
  - discriminate.
  - pose proof (tail_hole_inv _ _ _ H T) as T'. pose proof (tail_no_hole _ _ T') as NW.
    pose proof (starts_long _ _ _ _ _ S T') as V. rewrite (splits_length _ _ W NW) in V.
    destruct (has_hole (to_pattern r)) eqn:HR.
    + destruct (app_suffix _ _ _ _ X V) as [x Xt]. apply all_in_app in AT as [_ AT]. eapply IH; eauto.
    + rewrite (tail_self _ _ T' HR) in W. pose proof (no_hole_match _ _ HR W) as N.
      assert (U : String.length u <= String.length s).
      { apply (L u v X); [|congruence]. rewrite X in AT. now apply all_in_app in AT. }
      assert (Q : String.length t = String.length v).
      { apply (f_equal String.length) in X. rewrite !length_app_s in X. lia. }
      rewrite (same_suffix _ _ _ _ X Q) in M. congruence.
  - rewrite has_hole_char in HH by auto. destruct AT as [AT1 AT2].
    destruct (tail_char_inv _ _ _ H T) as [[N ->]|[N T']]; [congruence|].
    pose proof (tail_no_hole _ _ T') as NW. pose proof (starts_long _ _ _ _ _ S T') as V. rewrite (splits_length _ _ W NW) in V.
    destruct (app_suffix (String d "") t u v) as [x Xt]; auto. eapply IH; eauto.
Qed.
Lemma no_hole_none : forall m ss text, splits m ss text -> has_hole (to_pattern m) = false -> ss = [].
Proof.
  induction 1 as [|c r s ss t I L S IH|c d r ss t N X S IH]; intros H; auto.
  - rewrite pattern_hole in H by now apply hole_letter_iff. discriminate.
  - apply not_hole in N. rewrite has_hole_char in H by auto. auto.
Qed.
Lemma splits_tail : forall m ss text, splits m ss text -> exists w u v, tail_of m w /\ text = (u ++ v)%string /\ splits w [] v.
Proof.
  induction 1 as [|c r s ss t I L S [w [u [v [T [-> W]]]]]|c d r ss t N E S [w [u [v [T [-> W]]]]]].
  - exists ""%string, ""%string, ""%string. split; [apply tail_none; reflexivity|]. split; [reflexivity|apply splits_nil].
  - exists w, (s ++ u)%string, v. rewrite app_assoc_s. split; [|split; auto]. apply tail_hole; auto. now apply hole_letter_iff.
  - destruct (has_hole (to_pattern r)) eqn:H.
    + exists w, (String d u), v. split; [|split; auto]. apply tail_char; auto. now apply not_hole.
    + exists (String c r), ""%string, (String d (u ++ v)). split; [|split; [reflexivity|]].
      * apply tail_none. rewrite has_hole_char; auto. now apply not_hole.
      * rewrite (no_hole_none _ _ _ S H) in S. apply splits_char; auto.
Qed.
Lemma match_full : forall m ss text, splits m ss text -> has_hole (to_pattern m) = true -> lacks "010" text ->
  exists other, rmatch true (to_pattern m) text = Some (other, ""%string) /\ splits m other text.
Proof.
  intros m ss text S H L. destruct (match_complete _ _ _ S) as [[g e] M]. pose proof (match_starts _ _ _ _ M) as T.
  destruct (splits_tail _ _ _ S) as [w [u [v [T1 [T2 T3]]]]].
  assert (e = ""%string) by (eapply reaches_end; eauto; now apply lacks_class). subst e.
  exists g. split; auto. eapply starts_splits; eauto.
Qed.

Lemma no_doubled_tail : forall c m, no_doubled (String c m) -> no_doubled m.
Proof. intros c m H [a [b ->]]. apply H. now exists (String c a), b. Qed.
Lemma renders_splits : forall m ss text, renders m ss text -> no_doubled m -> Forall (lacks "010") ss -> splits m ss text.
Proof.
  induction 1 as [|c r s ss t I R IH|r ss t R IH|c r ss t N R IH]; intros D F.
  - constructor.
  - inversion F; subst. constructor; auto.
    + destruct I as [<-|[<-|[<-|[]]]]; cbn; auto.
    + apply IH; auto. eapply no_doubled_tail, no_doubled_tail, D.
  - exfalso. apply D. exists ""%string, r. reflexivity.
  - apply splits_char; [intros E; congruence|reflexivity|]. apply IH; auto. eapply no_doubled_tail, D.
Qed.
Lemma renders_hole_iff : forall m ss text, renders m ss text -> no_doubled m -> has_hole (to_pattern m) = negb (Nat.eqb (List.length ss) 0).
Proof.
  induction 1 as [|c r s ss t I R IH|r ss t R IH|c r ss t N R IH]; intros D.
  - reflexivity.
  - rewrite pattern_hole; [reflexivity|]. apply hole_letter_iff. destruct I as [<-|[<-|[<-|[]]]]; cbn; auto.
  - exfalso. apply D. exists ""%string, r. reflexivity.
  - rewrite pattern_char; [cbn [has_hole existsb orb]; apply IH; eapply no_doubled_tail, D|].
    apply not_hole. intros ->. congruence.
Qed.

Lemma renders_line : forall m ss text, renders m ss text -> lacks "010" m -> Forall (lacks "010") ss -> lacks "010" text.
Proof.
  induction 1 as [|c r s ss t I R IH|r ss t R IH|c r ss t N R IH]; intros L F.
  - apply lacks_nil.
  - inversion F; subst. apply lacks_cons in L as [_ L]. apply lacks_cons in L as [_ L]. apply lacks_app. auto.
  - cbn [append] in L. apply lacks_cons in L as [_ L]. apply lacks_cons in L as [_ L]. apply lacks_cons. split; auto. discriminate.
  - apply lacks_cons in L as [N' L]. apply lacks_cons. auto.
Qed.
Lemma splits_hole_inv : forall c r o u, In (lower_ascii c) ["r"; "s"; "d"]%char -> splits (String "%" (String c r)) o u ->
  exists s ss t, o = s :: ss /\ u = (s ++ t)%string /\ lacks "010" s /\ splits r ss t.
Proof.
  intros c r o u I S. inversion S as [|c0 r0 s ss t I0 L S0|c0 d r0 ss t N E S0]; subst; [eauto 8|].
  exfalso. apply N; eauto.
Qed.
Lemma splits_char_inv : forall c r o u, c <> "%"%char -> splits (String c r) o u ->
  exists d t, u = String d t /\ same_letter c d /\ splits r o t.
Proof. intros c r o u N S. inversion S as [|c0 r0 s ss t I0 L S0|c0 d r0 ss t N0 E S0]; subst; [congruence|eauto]. Qed.
Lemma same_prefix : forall a x b, (a ++ b = x ++ b)%string -> a = x.
Proof.
  induction a as [|c a IH]; intros [|d x] b H; auto.
  - apply (f_equal String.length) in H. cbn [append String.length] in H. rewrite length_app_s in H. lia.
  - apply (f_equal String.length) in H. cbn [append String.length] in H. rewrite length_app_s in H. lia.
  - cbn [append] in H. inversion H. f_equal. eauto.
Qed.
(** One snippet is always found. *)
Lemma no_snippets : forall r t, renders r [] t -> no_doubled r -> forall o u, splits r o u -> o = [] /\ String.length u = String.length t.
Proof.
  intros r t R. remember [] as ss eqn:E. induction R as [|c r x ss t I R IH|r ss t R IH|c r ss t N R IH]; intros D o u S.
  - inversion S; auto.
  - discriminate.
  - exfalso. apply D. exists ""%string, r. reflexivity.
  - apply splits_char_inv in S as [d [t' [-> [_ S]]]]; auto.
    destruct (IH E (no_doubled_tail _ _ D) _ _ S) as [-> X]. cbn [String.length]. auto.
Qed.
Lemma one_unique : forall m s text other, renders m [s] text -> no_doubled m -> splits m other text -> other = [s].
Proof.
  intros m s text other R D. remember [s] as ss eqn:E. revert other.
  induction R as [|c r s' ss t I R IH|r ss t R IH|c r ss t N R IH]; intros other S.
  - discriminate.
  - inversion E; subst. assert (D' : no_doubled r) by (eapply no_doubled_tail, no_doubled_tail, D). clear IH.
    apply splits_hole_inv in S as [x [xs [t' [-> [X [_ S]]]]]]; [|destruct I as [<-|[<-|[<-|[]]]]; cbn; auto].
    destruct (no_snippets _ _ R D' _ _ S) as [-> L]. f_equal.
    pose proof (same_suffix _ _ _ _ X (eq_sym L)). subst t'. symmetry. eapply same_prefix; eauto.
  - exfalso. apply D. exists ""%string, r. reflexivity.
  - apply splits_char_inv in S as [d [t' [X [_ S]]]]; auto. inversion X; subst. eapply IH; eauto. eapply no_doubled_tail, D.
Qed.

(** ** Formatting *)

Definition of_part (p : part) : list piece :=
  match p with
  | Say s => map Char (list_ascii_of_string s)
  | Next => [Field ""]
  | At i => [Field (dec i)]
  end.
Lemma pieces_char : forall c r, c <> "{"%char -> c <> "}"%char -> pieces None (String c r) = do l <- pieces None r; Ok (Char c :: l).
Proof. intros c r A B. destruct c as [[] [] [] [] [] [] [] []]; try reflexivity; congruence. Qed.
Lemma pieces_say : forall s r l, pieces None r = Ok l ->
  pieces None (braces s ++ r) = Ok (map Char (list_ascii_of_string s) ++ l).
Proof.
  induction s as [|c s IH]; intros r l H; [exact H|]. cbn [braces].
  destruct (Ascii.eqb_spec c "{") as [->|N1]; [cbn [orb append pieces]; now rewrite (IH r l H)|].
  destruct (Ascii.eqb_spec c "}") as [->|N2]; [cbn [orb append pieces]; now rewrite (IH r l H)|].
  cbn [orb append]. rewrite pieces_char, (IH r l H) by auto. reflexivity.
Qed.
Fixpoint digits_only (s : string) : Prop :=
  match s with EmptyString => True | String c r => digit c <> None /\ digits_only r end.
Lemma dec_digits : forall d, digits_only (NilEmpty.string_of_uint d).
Proof. induction d; cbn; auto; split; auto; discriminate. Qed.
Lemma pieces_digits : forall s name r, digits_only s ->
  pieces (Some name) (s ++ String "}" r) = do l <- pieces None r; Ok (Field (name ++ s)%string :: l).
Proof.
  induction s as [|c s IH]; intros name r D.
  - cbn [append pieces]. now rewrite app_nil_s.
  - destruct D as [D1 D2]. cbn [append].
    assert (X : pieces (Some name) (String c (s ++ String "}" r)) = pieces (Some (name ++ String c "")%string) (s ++ String "}" r)).
    { destruct c as [[] [] [] [] [] [] [] []]; try reflexivity; exfalso; apply D1; reflexivity. }
    rewrite X, IH by auto. rewrite app_assoc_s. reflexivity.
Qed.
Lemma dec_nonempty : forall i, exists c s, dec i = String c s.
Proof.
  intros i. unfold dec. destruct (Nat.to_uint i) as [| | | | | | | | | |] eqn:E; cbn; eauto.
  exfalso. pose proof (Unsigned.of_to i) as X. rewrite E in X. cbn in X. subst i. discriminate.
Qed.
Lemma pieces_at : forall i r l, pieces None r = Ok l -> pieces None (("{" ++ dec i ++ "}") ++ r) = Ok (Field (dec i) :: l).
Proof.
  intros i r l H. rewrite app_assoc_s. cbn [append]. rewrite app_assoc_s. cbn [append].
  assert (D : digits_only (dec i)) by apply dec_digits. destruct (dec_nonempty i) as [c [s E]].
  assert (X : pieces None (String "{" (dec i ++ String "}" r)) = pieces (Some ""%string) (dec i ++ String "}" r)).
  { rewrite E in *. destruct D as [D _]. cbn [append]. destruct c as [[] [] [] [] [] [] [] []]; try reflexivity. exfalso; apply D; reflexivity. }
  rewrite X, pieces_digits, H by auto. reflexivity.
Qed.
Lemma pieces_spell : forall ps, pieces None (spell ps) = Ok (flat_map of_part ps).
Proof.
  induction ps as [|p ps IH]; [reflexivity|]. unfold spell in *. cbn [fold_right flat_map]. destruct p as [s| |i]; cbn [spell_part of_part].
  - now apply pieces_say.
  - cbn [append pieces]. now rewrite IH.
  - now apply pieces_at.
Qed.

Lemma number_of : forall d acc, number (NilEmpty.string_of_uint d) acc = Some (Nat.of_uint_acc d acc).
Proof.
  assert (X : forall c r acc k, digit c = Some k -> number (String c r) acc = number r (10 * acc + k))
    by (intros c r acc k H; cbn [number]; now rewrite H).
  induction d; intros acc; [reflexivity|..]; cbn [NilEmpty.string_of_uint Nat.of_uint_acc];
    erewrite X by reflexivity; rewrite IHd, Nat.tail_mul_spec; do 2 f_equal;
    match goal with |- _ + (?a - 48) = _ => let n := eval vm_compute in (a - 48) in change (a - 48) with n end; lia.
Qed.
Lemma number_dec : forall i, number (dec i) 0 = Some i.
Proof.
  intros i. unfold dec. rewrite number_of. f_equal. exact (Unsigned.of_to i).
Qed.

Lemma fill_chars : forall s r args m, fill (map Char (list_ascii_of_string s) ++ r) args m = do t <- fill r args m; Ok (s ++ t)%string.
Proof.
  induction s as [|c s IH]; intros.
  - change (fill r args m = do t <- fill r args m; Ok t). destruct (fill r args m); reflexivity.
  - change (fill (map Char (list_ascii_of_string (String c s)) ++ r) args m)
      with (do t <- fill (map Char (list_ascii_of_string s) ++ r) args m; Ok (String c t)).
    rewrite IH. destruct (fill r args m); reflexivity.
Qed.
Lemma fill_auto : forall words n ps t, filled words n ps t -> (forall i, ~ In (At i) ps) ->
  forall m, (m = Automatic n \/ (m = Undecided /\ n = 0)) -> fill (flat_map of_part ps) words m = Ok t.
Proof.
  induction 1 as [n|n s ps t F IH|n w ps t E F IH|n i w ps t E F IH]; intros N m M; cbn [flat_map of_part].
  - reflexivity.
  - rewrite fill_chars, IH; auto. intros i I. apply (N i). now right.
  - cbn [Datatypes.app fill]. assert (X : match m with Automatic k => k | _ => 0 end = n) by (destruct M as [->|[-> ->]]; reflexivity).
    assert (IHm : fill (flat_map of_part ps) words (Automatic (S n)) = Ok t) by (apply IH; auto; intros i I; apply (N i); now right).
    destruct M as [->|[-> ->]]; cbv zeta beta iota; unfold argument; rewrite E; cbn [bind]; rewrite IHm; reflexivity.
  - exfalso. apply (N i). now left.
Qed.
Lemma fill_manual : forall words n ps t, filled words n ps t -> ~ In Next ps ->
  forall m, (m = Manual \/ m = Undecided) -> fill (flat_map of_part ps) words m = Ok t.
Proof.
  induction 1 as [n|n s ps t F IH|n w ps t E F IH|n i w ps t E F IH]; intros N m M; cbn [flat_map of_part].
  - reflexivity.
  - rewrite fill_chars, IH; auto. intros I. apply N. now right.
  - exfalso. apply N. now left.
  - cbn [Datatypes.app fill]. destruct (dec_nonempty i) as [c [s D]].
    assert (IHm : fill (flat_map of_part ps) words Manual = Ok t) by (apply IH; auto; intros I; apply N; now right).
    pose proof (number_dec i) as X. rewrite D in *. rewrite X.
    destruct M as [-> | ->]; unfold argument; rewrite E; cbn [bind]; rewrite IHm; reflexivity.
Qed.
Lemma format_filled : forall ps words t, consistent ps -> filled words 0 ps t -> format (spell ps) words = Ok t.
Proof.
  intros ps words t C F. unfold format. rewrite pieces_spell. cbn [bind]. destruct C as [C|C].
  - eapply fill_manual; eauto.
  - eapply fill_auto; eauto.
Qed.

(** ** Snippets *)

Lemma extracts_replaced : forall show d i ws vs, replaced_all d (S i) ws vs -> translate_extracts show (TTable d) i ws = Ok vs.
Proof.
  intros show d i ws. revert i. induction ws as [|w ws IH]; intros i vs R; inversion R; subst; [reflexivity|].
  cbn [translate_extracts]. rewrite Nat.add_1_r. rewrite (IH (S i) vs0) by auto.
  destruct H2 as [[m [E1 E2]]|[-> [E|[m [E1 E2]]]]].
  - rewrite E1, E2. reflexivity.
  - rewrite E. reflexivity.
  - rewrite E1, E2. reflexivity.
Qed.

(** ** Translation *)

Lemma translate_matched : forall messages show t code text m ss e d words ps out,
  messages code = Some m -> has_hole (to_pattern m) = true -> rmatch true (to_pattern m) text = Some (ss, e) ->
  extracts t = TTable d -> replaced_all d 1 ss words ->
  ConfigFileModel.template t = spell ps -> consistent ps -> filled words 0 ps out ->
  translate messages show t code text = Ok out.
Proof.
  intros messages show t code text m ss e d words ps out M H R E W T C F. unfold translate. rewrite M, H, R, E. cbn [negb].
  rewrite (extracts_replaced show d 0 ss words W). cbn [bind]. rewrite T. now apply format_filled.
Qed.
Lemma translate_unique : forall messages show t code text m ss d words ps out,
  messages code = Some m -> ss <> [] -> renders m ss text -> no_doubled m -> lacks "010" m -> Forall (lacks "010") ss ->
  (List.length ss = 1 \/ forall other, splits m other text -> other = ss) ->
  extracts t = TTable d -> replaced_all d 1 ss words ->
  ConfigFileModel.template t = spell ps -> consistent ps -> filled words 0 ps out ->
  translate messages show t code text = Ok out.
Proof.
  intros messages show t code text m ss d words ps out M N R D LM L U E W T C F.
  assert (H : has_hole (to_pattern m) = true) by (rewrite (renders_hole_iff _ _ _ R D); destruct ss; [congruence|reflexivity]).
  destruct (match_full m ss text (renders_splits _ _ _ R D L) H (renders_line _ _ _ R LM L)) as [other [X S]].
  assert (O : other = ss).
  { destruct U as [U|U]; auto. destruct ss as [|s [|]]; try discriminate. eapply one_unique; eauto. }
  subst other. eapply translate_matched; eauto.
Qed.
Lemma replaced_exists : forall d, well_formed d -> forall ws i, exists vs, replaced_all d i ws vs /\ List.length vs = List.length ws.
Proof.
  intros d W. induction ws as [|w ws IH]; intros i; [exists []; split; [constructor|reflexivity]|].
  destruct (IH (S i)) as [vs [R L]].
  assert (exists v, replaced d i w v) as [v V].
  { destruct (dget (dec i) d) as [t|] eqn:E; [|exists w; right; auto].
    destruct (W _ _ E) as [m [-> M]]. destruct (dget w m) as [x|] eqn:X.
    - destruct (M _ _ X) as [s ->]. exists s. left. eauto.
    - exists w. right. eauto. }
  exists (v :: vs). split; [now constructor|]. cbn [List.length]. now rewrite L.
Qed.
Lemma filled_exists : forall words ps n, n + nexts ps <= List.length words -> (forall i, In (At i) ps -> i < List.length words) ->
  exists out, filled words n ps out.
Proof.
  induction ps as [|p ps IH]; intros n N A; [eexists; constructor|].
  assert (A' : forall i, In (At i) ps -> i < List.length words) by (intros i I; apply A; now right).
  destruct p as [s| |i]; cbn [nexts] in N.
  - destruct (IH n N A') as [o F]. eexists. apply filled_say, F.
  - destruct (IH (S n) ltac:(lia) A') as [o F]. destruct (nth_error words n) as [w|] eqn:E; [|apply nth_error_None in E; lia].
    eexists. eapply filled_next; eauto.
  - destruct (IH n N A') as [o F]. pose proof (A i (or_introl eq_refl)).
    destruct (nth_error words i) as [w|] eqn:E; [|apply nth_error_None in E; lia].
    eexists. eapply filled_at; eauto.
Qed.
Lemma splits_count : forall m ss text, renders m ss text -> no_doubled m -> forall o u, splits m o u -> List.length o = List.length ss.
Proof.
  induction 1 as [|c r s ss t I R IH|r ss t R IH|c r ss t N R IH]; intros D o u S.
  - inversion S; reflexivity.
  - apply splits_hole_inv in S as [x [xs [t' [-> [_ [_ S]]]]]]; [|destruct I as [<-|[<-|[<-|[]]]]; cbn; auto].
    cbn [List.length]. f_equal. eapply IH; eauto. eapply no_doubled_tail, no_doubled_tail, D.
  - exfalso. apply D. exists ""%string, r. reflexivity.
  - apply splits_char_inv in S as [d [t' [_ [_ S]]]]; auto. eapply IH; eauto. eapply no_doubled_tail, D.
Qed.
Lemma all_filled : forall messages show t code text m ss d ps,
  messages code = Some m -> ss <> [] -> renders m ss text -> no_doubled m -> lacks "010" m -> Forall (lacks "010") ss ->
  extracts t = TTable d -> well_formed d -> ConfigFileModel.template t = spell ps -> consistent ps -> fits (List.length ss) ps ->
  exists other words out, splits m other text /\ replaced_all d 1 other words /\ filled words 0 ps out /\
    translate messages show t code text = Ok out.
Proof.
  intros messages show t code text m ss d ps M N R D LM L E W T C [F1 F2].
  assert (H : has_hole (to_pattern m) = true) by (rewrite (renders_hole_iff _ _ _ R D); destruct ss; [congruence|reflexivity]).
  destruct (match_full m ss text (renders_splits _ _ _ R D L) H (renders_line _ _ _ R LM L)) as [other [X S]].
  destruct (replaced_exists d W other 1) as [words [RA LW]]. rewrite (splits_count _ _ _ R D _ _ S) in LW.
  destruct (filled_exists words ps 0) as [out F]; [lia|rewrite LW; auto|].
  exists other, words, out. repeat (split; auto). eapply translate_matched; eauto.
Qed.
