(** Lemmas about tweaking the linters' own messages. *)
From Coq Require Import String Ascii List Bool Arith ZArith Lia.
From Verif Require Import Base ConfigModel ConfigSpec ConfigProofs PathModel RegexModel LintModel LintSpec LintProofs TweakSpec.
Import ListNotations.
Local Open Scope string_scope.
Local Open Scope list_scope.

(** ** Matching *)

Lemma app_assoc_s : forall a b c : string, ((a ++ b) ++ c = a ++ b ++ c)%string.
Proof. induction a; intros; cbn [append]; congruence. Qed.
Lemma app_nil_s : forall a, (a ++ "" = a)%string.
Proof. induction a; cbn [append]; congruence. Qed.
Lemma strip_lit_app : forall l s, strip_lit false l (l ++ s) = Some (l, s).
Proof. induction l as [|a l IH]; intros; auto. cbn [append strip_lit char_eqb]. rewrite Ascii.eqb_refl, IH. reflexivity. Qed.
Lemma strip_lit_length : forall ci l s x, strip_lit ci l s = Some x -> String.length l <= String.length s.
Proof.
  induction l as [|a l IH]; intros [|b s] x H; cbn [strip_lit] in H; cbn [String.length]; try lia; try discriminate.
  destruct (char_eqb ci a b); [|discriminate]. destruct (strip_lit ci l s) as [[m r]|] eqn:E; [|discriminate].
  apply IH in E. lia.
Qed.
Fixpoint all_in (cls : ascii -> bool) (s : string) : Prop :=
  match s with EmptyString => True | String c r => cls c = true /\ all_in cls r end.
Lemma star_none : forall A cls (k : string -> option A) s, (forall t, String.length t <= String.length s -> k t = None) ->
  star cls k s = None.
Proof.
  induction s as [|c s IH]; intros H; cbn [star].
  - now rewrite H.
  - rewrite IH; [|intros; apply H; cbn [String.length]; lia]. destruct (cls c); now rewrite H.
Qed.
(** The repetition takes everything if what follows fits nowhere else. *)
Lemma star_last : forall A cls (k : string -> option A) n t x, all_in cls n -> k t = Some x ->
  (forall u, String.length u < String.length t -> k u = None) ->
  star cls k (n ++ t) = Some (n, x).
Proof.
  induction n as [|c n IH]; intros t x P K F.
  - cbn [append]. destruct t as [|c t]; cbn [star].
    + now rewrite K.
    + rewrite star_none; [|intros; apply F; cbn [String.length]; lia]. destruct (cls c); now rewrite K.
  - destruct P as [P1 P2]. cbn [append star]. rewrite P1, (IH t x); auto.
Qed.
(** The repetition stops at a character outside the class. *)
Lemma star_stop : forall A cls (k : string -> option A) n c t x, all_in cls n -> cls c = false -> k (String c t) = Some x ->
  star cls k (n ++ String c t) = Some (n, x).
Proof.
  induction n as [|d n IH]; intros c t x P C K.
  - cbn [append star]. now rewrite C, K.
  - destruct P as [P1 P2]. cbn [append star]. rewrite P1, (IH c t x); auto.
Qed.
Lemma star_end : forall A cls (k : string -> option A) n x, all_in cls n -> k "" = Some x -> star cls k n = Some (n, x).
Proof.
  induction n as [|d n IH]; intros x P K; cbn [star].
  - now rewrite K.
  - destruct P as [P1 P2]. now rewrite P1, (IH x).
Qed.
Lemma lacks_cons : forall c d s, lacks c (String d s) <-> d <> c /\ lacks c s.
Proof.
  unfold lacks. intros. split.
  - intros H. split.
    + intros ->. apply H. now exists ""%string, s.
    + intros [a [b ->]]. apply H. now exists (String d a), b.
  - intros [N H] [[|x a] [b E]]; cbn [append] in E; inversion E; subst; auto. apply H. now exists a, b.
Qed.
Lemma lacks_class : forall c s, lacks c s -> all_in (fun d => negb (Ascii.eqb d c)) s.
Proof.
  induction s as [|d s IH]; intros H; [exact I|]. apply lacks_cons in H as [N H]. split; auto.
  apply Ascii.eqb_neq in N. now rewrite N.
Qed.
Lemma lacks_app : forall c a b, lacks c (a ++ b) <-> lacks c a /\ lacks c b.
Proof.
  induction a as [|d a IH]; intros b; cbn [append].
  - split; [|tauto]. intros H. split; auto. intros [x [y E]]. destruct x; discriminate.
  - rewrite !lacks_cons, IH. tauto.
Qed.
Lemma lacks_nil : forall c, lacks c "".
Proof. intros c [a [b E]]. destruct a; discriminate. Qed.
Lemma has_char_iff : forall c s, has_char c s = true <-> ~ lacks c s.
Proof.
  induction s as [|d s IH]; cbn [has_char].
  - split; [discriminate|]. intros H. exfalso. apply H, lacks_nil.
  - rewrite lacks_cons. destruct (Ascii.eqb_spec d c) as [->|N]; cbn [orb].
    + split; auto. intros _ [X _]. auto.
    + rewrite IH. split; intros H X; apply H; tauto.
Qed.

(** [literal (anything) literal] on a text of that shape. *)
Lemma match_between : forall a n b, lacks "010" n ->
  rmatch false [Lit a; CapStar any_char; Lit b] (a ++ n ++ b) = Some ([n], ""%string).
Proof.
  intros a n b N. cbn [rmatch]. rewrite strip_lit_app.
  rewrite (star_last _ any_char _ n b ([], ""%string)); auto.
  - now apply lacks_class.
  - rewrite <- (app_nil_s b) at 2. now rewrite strip_lit_app.
  - intros u L. destruct (strip_lit false b u) as [x|] eqn:E; auto. apply strip_lit_length in E. lia.
Qed.
Lemma match_tail : forall a n, lacks "010" n -> rmatch false [Lit a; CapStar any_char] (a ++ n) = Some ([n], ""%string).
Proof.
  intros a n N. cbn [rmatch]. rewrite strip_lit_app, (star_end _ any_char _ n ([], ""%string)); auto. now apply lacks_class.
Qed.

(** ** Quotes *)

Lemma rev_str_app : forall s acc t, rev_str s (acc ++ t) = (rev_str s acc ++ t)%string.
Proof. induction s as [|c s IH]; intros; auto. cbn [rev_str]. apply (IH (String c acc)). Qed.
Lemma rev_str_snoc : forall s c acc, rev_str (s ++ String c "") acc = String c (rev_str s acc).
Proof. induction s as [|d s IH]; intros; auto. cbn [append rev_str]. apply IH. Qed.
Lemma rev_rev : forall s acc t, rev_str (rev_str s acc) t = rev_str acc (s ++ t).
Proof. induction s as [|c s IH]; intros; auto. cbn [rev_str append]. now rewrite IH. Qed.
Definition unquoted (s : string) : Prop := lacks "'" s /\ lacks "034" s.
Lemma lstrip_id : forall c s, c <> "'"%char -> c <> "034"%char -> lstrip quotes (String c s) = String c s.
Proof. intros c s A B. cbn [lstrip]. unfold quotes. cbn [existsb]. apply Ascii.eqb_neq in A, B. now rewrite A, B. Qed.
Lemma snoc_cases : forall s, s = ""%string \/ exists t c, s = (t ++ String c "")%string.
Proof.
  induction s as [|c s [->|[t [d ->]]]]; auto.
  - right. now exists ""%string, c.
  - right. now exists (String c t), d.
Qed.
Lemma strip_quoted : forall n, unquoted n -> strip quotes ("'" ++ n ++ "'") = n.
Proof.
  intros n [A B]. unfold strip. cbn [append lstrip]. unfold quotes at 2. cbn [existsb Ascii.eqb Bool.eqb orb].
  destruct n as [|c n]; [reflexivity|].
  assert (X : lstrip quotes (String c n ++ "'") = (String c n ++ "'")%string).
  { cbn [append]. apply lacks_cons in A as [A _]. apply lacks_cons in B as [B _]. now apply lstrip_id. }
  rewrite X, rev_str_snoc. cbn [lstrip]. unfold quotes at 1. cbn [existsb Ascii.eqb Bool.eqb orb].
  destruct (snoc_cases (String c n)) as [E|[t [d E]]]; [discriminate|]. rewrite E in *.
  rewrite rev_str_snoc. apply lacks_app in A as [_ A], B as [_ B]. apply lacks_cons in A as [A _], B as [B _].
  rewrite lstrip_id; auto. cbn [rev_str]. rewrite rev_rev. reflexivity.
Qed.

(** ** Stars *)

Lemma count_none : forall c s, count_char c s = 0 <-> lacks c s.
Proof.
  induction s as [|d s IH]; cbn [count_char]; [split; auto using lacks_nil|].
  rewrite lacks_cons, <- IH. destruct (Ascii.eqb_spec d c); split; intros; try lia; tauto.
Qed.
Lemma count_app : forall c a b, count_char c (a ++ b) = count_char c a + count_char c b.
Proof. induction a; intros; auto. cbn [append count_char]. rewrite IHa. lia. Qed.
Lemma count_split : forall c s, count_char c s <> 0 -> exists a b, s = (a ++ String c b)%string /\ count_char c a = 0.
Proof.
  induction s as [|d s IH]; cbn [count_char]; intros H; [congruence|]. destruct (Ascii.eqb_spec d c) as [->|N].
  - now exists ""%string, s.
  - destruct IH as [a [b [-> Z]]]; [lia|]. exists (String d a), b. split; auto. cbn [count_char].
    apply Ascii.eqb_neq in N. now rewrite N.
Qed.
Lemma two_stars : forall s, 1 < count_char "*" s <-> exists x y z, s = (x ++ "*" ++ y ++ "*" ++ z)%string.
Proof.
  intros s. split.
  - intros H. destruct (count_split "*" s) as [a [b [-> Z]]]; [lia|]. rewrite count_app in H. cbn [count_char] in H.
    rewrite Ascii.eqb_refl in H. destruct (count_split "*" b) as [d [e [-> Z']]]; [lia|]. exists a, d, e. reflexivity.
  - intros [x [y [z ->]]]. rewrite count_app. change ("*" ++ y ++ "*" ++ z)%string with (String "*" (y ++ String "*" z)).
    cbn [count_char]. rewrite count_app. cbn [count_char]. rewrite Ascii.eqb_refl. lia.
Qed.
Lemma first_dot : forall s, exists a b, (s ++ "." = a ++ "." ++ b)%string /\ lacks "." a.
Proof.
  induction s as [|c s [a [b [E L]]]].
  - exists ""%string, ""%string. split; auto using lacks_nil.
  - destruct (Ascii.eqb_spec c ".") as [->|N].
    + exists ""%string, (s ++ ".")%string. split; auto using lacks_nil.
    + exists (String c a), b. cbn [append]. rewrite E. split; auto. apply lacks_cons. auto.
Qed.
Lemma first_dot_unique : forall a b a' b', (a ++ "." ++ b = a' ++ "." ++ b')%string -> lacks "." a -> lacks "." a' -> a = a'.
Proof.
  induction a as [|c a IH]; intros b [|c' a'] b' E L L'; auto; cbn [append] in E; inversion E; subst.
  - apply lacks_cons in L' as [L' _]. congruence.
  - apply lacks_cons in L as [L _]. congruence.
  - apply lacks_cons in L as [_ L], L' as [_ L']. rewrite (IH b a' b'); auto.
Qed.

(** ** Arguments *)

Lemma only_arg : forall c o v, complete c -> iget c o = Ok v ->
  filter (fun a => existsb (opt_eqb (fst a)) [o]) (ivals c) = [(o, v)].
Proof.
  intros c o v C G. unfold complete in C. unfold iget in G.
  assert (L : List.length (ivals c) = 10) by (rewrite <- (map_length fst), C; reflexivity).
  destruct (ivals c) as [|a0 [|a1 [|a2 [|a3 [|a4 [|a5 [|a6 [|a7 [|a8 [|a9 [|]]]]]]]]]]]; try discriminate.
  destruct a0, a1, a2, a3, a4, a5, a6, a7, a8, a9. cbn [map fst] in C. unfold all_options in C. inversion C; subst.
  destruct o; cbn in G; inversion G; subst; reflexivity.
Qed.
Lemma no_arg : forall l : list parg, filter (fun a => existsb (opt_eqb (fst a)) []) l = [].
Proof. induction l; auto. Qed.

(** ** One message *)

Definition step (c : iconfig) (p : problem) : res (list problem) :=
  match tweaker_of (source p) (code p) with
  | None => Ok [p]
  | Some t =>
      do k <- keep t (tw_match (pattern t)) p
                (filter (fun a => existsb (opt_eqb (fst a)) (used_options t)) (ivals c));
      if k then do w <- get_reword t p; Ok [with_text p w] else Ok []
  end.
Definition outcome (c : iconfig) (p : problem) (f : finding) : Prop :=
  (dropped c f /\ step c p = Ok []) \/
  (~ dropped c f /\ step c p = Ok [with_text p (final_text f (text p))]).

Lemma with_own : forall p, with_text p (text p) = p.
Proof. now destruct p. Qed.
Lemma decide_by : forall c p f (b : bool), (b = true <-> ~ dropped c f) -> (b = false <-> dropped c f) ->
  step c p = (if b then Ok [with_text p (final_text f (text p))] else Ok []) -> outcome c p f.
Proof. intros c p f [|] A B E; [right|left]; split; auto; tauto. Qed.
Lemma by_false : forall (b : bool) (D : Prop), (b = false <-> D) -> (b = true <-> ~ D).
Proof. intros [|] D H; split; intros; try congruence; intuition congruence. Qed.

Lemma tweak_step : forall c p f, complete c -> typed c -> reports p f -> outcome c p f.
Proof.
  intros c p f C [[al TA] [[gs TG] [bs TB]]] R.
  assert (D : forall b : bool, (b = false <-> dropped c f) ->
     step c p = (if b then Ok [with_text p (final_text f (text p))] else Ok []) -> outcome c p f).
  { intros b B E. eapply decide_by; eauto. now apply by_false. }
  destruct f as [n|n|u r e|k|n|v same|]; unfold reports in R; cbn [template] in R.
  - destruct R as [S [K [T P]]]. cbn [proper] in P.
    set (allowed := match al with Some s => s | None => ""%string end).
    apply (D (match n with String ch EmptyString => negb (has_char ch allowed) | _ => true end)).
    + cbn [dropped]. destruct n as [|ch [|ch' n]].
      * split; [discriminate|]. intros [ch [ns [E _]]]. discriminate.
      * rewrite negb_false_iff, has_char_iff. subst allowed. split.
        -- intros H. destruct al as [s|]; [|exfalso; apply H, lacks_nil]. exists ch, s. auto.
        -- intros [ch' [ns [E [G H]]]]. inversion E; subst. rewrite TA in G. inversion G; subst. exact H.
      * split; [discriminate|]. intros [x [ns [E _]]]. discriminate.
    + assert (M : tw_match [[Lit ("Disallowed name " ++ dq); CapStar any_char; Lit dq]] (text p) = Ok [n]).
      { unfold tw_match. cbn [first_match]. rewrite T. change quote with dq. rewrite <- app_assoc_s, match_between; auto. }
      unfold step. rewrite S, K. cbn [tweaker_of String.eqb Ascii.eqb Bool.eqb keep used_options pattern].
      rewrite (only_arg c _ _ C TA). unfold disallowed_name_keep. 
      assert (A : match al with Some s => Ok s | None => Ok ""%string end = Ok allowed) by now destruct al.
      destruct al as [s|]; cbn [bind]; rewrite M; cbn [bind group nth_error Nat.sub]; unfold get_reword, disallowed_name_reword;
        cbn [reword pattern]; rewrite M; cbn [bind group nth_error Nat.sub]; subst allowed; cbn [final_text].
      * destruct n as [|ch [|ch' n]]; cbn [String.length Nat.eqb]; try reflexivity; destruct (has_char ch s); reflexivity.
      * destruct n as [|ch [|ch' n]]; cbn [String.length Nat.eqb]; reflexivity.
  - destruct R as [S [K [T P]]]. cbn [proper] in P. apply (D (negb (String.prefix "ib111" n))).
    + rewrite negb_false_iff. apply prefix_iff.
    + assert (M : tw_match [[Lit "'"; CapStar any_char; Lit "' imported but unused"]] (text p) = Ok [n]).
      { unfold tw_match. cbn [first_match]. rewrite T, match_between; auto. }
      unfold step. rewrite S, K. cbn [tweaker_of String.eqb Ascii.eqb Bool.eqb keep used_options pattern].
      unfold unused_import_keep. rewrite M. cbn [bind group nth_error Nat.sub]. unfold get_reword. cbn [reword bind].
      destruct (String.prefix "ib111" n); reflexivity.
  - destruct R as [S [K [T [P1 P2]]]]. destruct (first_dot e) as [a [b [E L]]].
    apply (D (match gs with [] => Nat.ltb 1 (count_char "*" a) | _ => true end)).
    + cbn [dropped]. rewrite TG. destruct gs as [|g gs]; [|split; [discriminate|intros [X _]; discriminate]].
      rewrite Nat.ltb_ge. split.
      * intros H. split; auto. exists a, b. split; auto. split; auto. rewrite <- two_stars. lia.
      * intros [_ [a' [b' [E' [L' H]]]]]. rewrite E in E'. apply first_dot_unique in E'; auto. subst a'.
        rewrite <- two_stars in H. lia.
    + assert (M : tw_match [[Lit "Use "; Star (not_char " "); Lit " instead of repeated "; Star (not_char " ");
                             Lit " in "; CapStar (not_char "."); One any_char]] (text p) = Ok [a]).
      { unfold tw_match. cbn [first_match]. rewrite T. cbn [rmatch]. rewrite strip_lit_app.
        change (" instead of repeated " ++ r ++ " in " ++ e ++ ".")%string
          with (String " " ("instead of repeated " ++ r ++ " in " ++ e ++ "."))%string.
        rewrite (star_stop _ _ _ u " " _ ([a], b)); [reflexivity| |reflexivity|].
        - now apply lacks_class.
        - change (String " " ("instead of repeated " ++ r ++ " in " ++ e ++ "."))%string
            with (" instead of repeated " ++ r ++ " in " ++ e ++ ".")%string.
          rewrite strip_lit_app. change (" in " ++ e ++ ".")%string with (String " " ("in " ++ e ++ "."))%string.
          rewrite (star_stop _ _ _ r " " _ ([a], b)); [reflexivity| |reflexivity|].
          + now apply lacks_class.
          + change (String " " ("in " ++ e ++ "."))%string with (" in " ++ e ++ ".")%string. rewrite strip_lit_app, E.
            change ("." ++ b)%string with (String "." b).
            rewrite (star_stop _ _ _ a "." _ ([], b)); [reflexivity| |reflexivity|reflexivity]. now apply lacks_class. }
      unfold step. rewrite S, K. cbn [tweaker_of String.eqb Ascii.eqb Bool.eqb keep used_options pattern].
      rewrite (only_arg c _ _ C TG). unfold no_repeated_op_keep. rewrite M. cbn [bind group nth_error Nat.sub].
      unfold get_reword. cbn [reword bind final_text].
      destruct gs as [|g gs].
      * cbn [str_in existsb negb orb]. reflexivity.
      * destruct (str_in "enhancement" (g :: gs)); reflexivity.
  - destruct R as [S [K [T [P1 [P2 P3]]]]]. apply (D (negb (String.eqb (lower k) "not"))).
    + rewrite negb_false_iff. apply String.eqb_eq.
    + assert (M : tw_match [[Lit "Unnecessary parens after "; CapStar any_char; Lit " keyword"]] (text p) = Ok [("'" ++ k ++ "'")%string]).
      { unfold tw_match. cbn [first_match]. rewrite T.
        replace ("Unnecessary parens after '" ++ k ++ "' keyword")%string
          with ("Unnecessary parens after " ++ ("'" ++ k ++ "'") ++ " keyword")%string
          by (cbn [append]; now rewrite app_assoc_s).
        rewrite match_between; auto. apply lacks_app. split; [intros [[|? [|? ?]] [? X]]; discriminate|].
        apply lacks_app. split; auto. intros [[|? [|? ?]] [? X]]; discriminate. }
      unfold step. rewrite S, K. cbn [tweaker_of String.eqb Ascii.eqb Bool.eqb keep used_options pattern].
      unfold superfluous_parens_keep. rewrite M. cbn [bind group nth_error Nat.sub]. rewrite strip_quoted by (split; auto).
      unfold get_reword. cbn [reword bind final_text]. destruct (String.eqb (lower k) "not"); reflexivity.
  - destruct R as [S [K [T [P1 [P2 P3]]]]]. apply (D (match bs with [] => true | _ => str_in n bs end)).
    + cbn [dropped]. rewrite TB. destruct bs as [|x bs].
      * split; [discriminate|]. intros [l [X [Y _]]]. inversion X; subst. congruence.
      * split.
        -- intros H. exists (x :: bs). split; auto. split; [discriminate|]. intros I. apply str_in_iff in I. congruence.
        -- intros [l [X [_ Z]]]. inversion X; subst. destruct (str_in n (x :: bs)) eqn:I; auto. apply str_in_iff in I. contradiction.
    + assert (M : tw_match [[Lit "Redefining built-in "; CapStar any_char]] (text p) = Ok [("'" ++ n ++ "'")%string]).
      { unfold tw_match. cbn [first_match]. rewrite T.
        change ("Redefining built-in '" ++ n ++ "'")%string with ("Redefining built-in " ++ ("'" ++ n ++ "'"))%string.
        rewrite match_tail; auto. apply lacks_app. split; [intros [[|? [|? ?]] [? X]]; discriminate|].
        apply lacks_app. split; auto. intros [[|? [|? ?]] [? X]]; discriminate. }
      unfold step. rewrite S, K. cbn [tweaker_of String.eqb Ascii.eqb Bool.eqb keep used_options pattern].
      rewrite (only_arg c _ _ C TB). unfold redefined_builtin_keep. rewrite M. cbn [bind group nth_error Nat.sub].
      rewrite strip_quoted by (split; auto). unfold get_reword. cbn [reword bind final_text].
      destruct bs as [|x bs]; [reflexivity|]. cbn [orb]. destruct (str_in n (x :: bs)); reflexivity.
  - destruct R as [S [K [T _]]]. right. split; [intros []|].
    unfold step. rewrite S, K. cbn [tweaker_of String.eqb Ascii.eqb Bool.eqb keep used_options pattern always_keep bind].
    unfold get_reword. cbn [reword pattern]. unfold singleton_bool_comparison_reword. rewrite T.
    destruct v, same; vm_compute; reflexivity.
  - right. split; [intros []|]. cbn [final_text]. rewrite with_own. unfold step.
    assert (X : tweaker_of (source p) (code p) = None); [|now rewrite X].
    unfold adjusted in R. cbn [In] in R. unfold tweaker_of. destruct (source p) eqn:Q; auto.
    + destruct (String.eqb_spec (code p) "C0104") as [X|_]; [exfalso; apply R; rewrite X; tauto|]. destruct (String.eqb_spec (code p) "R6607") as [X|_]; [exfalso; apply R; rewrite X; tauto|].
      destruct (String.eqb_spec (code p) "C0325") as [X|_]; [exfalso; apply R; rewrite X; tauto|]. destruct (String.eqb_spec (code p) "W0622") as [X|_]; [exfalso; apply R; rewrite X; tauto|]. auto.
    + destruct (String.eqb_spec (code p) "F401") as [X|_]; [exfalso; apply R; rewrite X; tauto|]. destruct (String.eqb_spec (code p) "E712") as [X|_]; [exfalso; apply R; rewrite X; tauto|]. auto.
Qed.

Lemma tweak_all : forall c ps fs, complete c -> typed c -> Forall2 reports ps fs ->
  exists out, apply_tweaks ps tweaker_of c = Ok out /\ tweaked c ps fs out.
Proof.
  intros c ps fs C T F. induction F as [|p f ps fs R F [out [IH1 IH2]]].
  - exists []. split; auto. constructor.
  - cbn [apply_tweaks]. fold (step c p). destruct (tweak_step c p f C T R) as [[D E]|[D E]]; rewrite E; cbn [bind]; rewrite IH1; cbn [bind app].
    + exists out. split; auto. now apply tweaked_drop.
    + eexists. split; [reflexivity|]. apply tweaked_keep; auto. unfold same_but_text, with_text. repeat split.
Qed.

(** Configurations in use are complete. *)
Lemma set_nth_fst : forall (l : list parg) o v n, nth_error (map fst l) n = Some o ->
  map fst (set_nth n (o, v) l) = map fst l.
Proof.
  induction l as [|a l IH]; intros o v n H; destruct n; cbn [map nth_error] in *; try discriminate; cbn [set_nth map fst].
  - congruence.
  - f_equal. now apply IH.
Qed.
Lemma order_loop_fst : forall args ord r, map fst ord = all_options -> order_loop args ord = Ok r -> map fst r = all_options.
Proof.
  induction args as [|a args IH]; intros ord r H E; cbn [order_loop] in E; [congruence|].
  destruct (order_step ord a) as [ord'|] eqn:S; [|discriminate]. cbn [bind] in E. eapply IH; [|exact E].
  destruct a as [[o v]|]; [|cbn [order_step] in S; congruence].
  assert (X : exists w, ord' = set_nth (opt_index o) (o, w) ord).
  { destruct o, v; cbn [order_step] in S; inversion S; eexists; reflexivity. }
  destruct X as [w ->]. rewrite set_nth_fst; auto. rewrite H. destruct o; reflexivity.
Qed.
Lemma immutable_complete : forall c sets ic, to_immutable c sets = Ok ic -> complete ic.
Proof.
  intros c sets ic H. unfold to_immutable in H. destruct (translate sets (args_of c)); [|discriminate]. cbn [bind] in H.
  destruct (combine_args _ _) as [m|]; [|discriminate]. cbn [bind] in H.
  destruct (order_loop m default_args) as [ord|] eqn:O; [|discriminate]. cbn [bind] in H.
  destruct (sets_enablers sets []); [|discriminate]. cbn [bind] in H. inversion H; subst. unfold complete. cbn [ivals].
  eapply order_loop_fst; [|exact O]. reflexivity.
Qed.
