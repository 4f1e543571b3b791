(** Proofs about forbidden comments. *)
From Coq Require Import String Ascii List Bool Arith Lia.
From Verif Require Import Base ConfigModel RegexModel LintModel TweakProofs TranslateProofs MagicModel MagicSpec.
Import ListNotations.
Local Open Scope string_scope.
Local Open Scope list_scope.
Local Open Scope nat_scope.

Lemma every_all : forall (P : ascii -> Prop) cls, (forall c, cls c = true <-> P c) -> forall s, every P s <-> all_in cls s.
Proof. intros P cls H. induction s as [|c s IH]; [reflexivity|]. cbn [every all_in]. rewrite IH, H. reflexivity. Qed.
Lemma space_white : forall c, is_space c = true <-> white c.
Proof.
  intro c. unfold is_space, white. set (n := nat_of_ascii c). cbn [In]. rewrite orb_true_iff, !andb_true_iff, !Nat.leb_le. lia.
Qed.
Lemma any_inline : forall c, any_char c = true <-> inline c.
Proof. intro c. unfold any_char, inline, newline. rewrite negb_true_iff, Ascii.eqb_neq. reflexivity. Qed.
Lemma blank_eq : forall c, Ascii.eqb " " c = true <-> c = " "%char.
Proof. intro c. rewrite Ascii.eqb_eq. split; congruence. Qed.
Lemma lower_app : forall a b, lower (a ++ b) = (lower a ++ lower b)%string.
Proof. induction a as [|c a IH]; intro b; [reflexivity|]. cbn [append lower]. rewrite IH. reflexivity. Qed.

Lemma strip_sound : forall l s m r, strip_lit true l s = Some (m, r) -> s = (m ++ r)%string /\ lower m = lower l.
Proof.
  induction l as [|a l IH]; intros s m r H.
  - cbn [strip_lit] in H. destruct s; assert (m = ""%string) as -> by congruence; split; try reflexivity; cbn [append]; congruence.
  - destruct s as [|b s]; cbn [strip_lit] in H; [discriminate H|]. destruct (char_eqb true a b) eqn:E; [|discriminate H]. destruct (strip_lit true l s) as [[m' r']|] eqn:F; [|discriminate H].
    assert (m = String b m') as -> by congruence. assert (r' = r) as -> by congruence. destruct (IH s m' r F) as [-> L]. split; [reflexivity|].
    cbn [lower]. rewrite L. unfold char_eqb in E. apply Ascii.eqb_eq in E. rewrite E. reflexivity.
Qed.
Lemma strip_complete : forall l m r, lower m = lower l -> strip_lit true l (m ++ r) = Some (m, r).
Proof.
  induction l as [|a l IH]; intros [|b m] r H; cbn [lower] in H; try discriminate H; [destruct r; reflexivity|].
  cbn [append strip_lit]. unfold char_eqb. assert (E : lower_ascii a = lower_ascii b) by congruence. rewrite E, Ascii.eqb_refl. rewrite (IH m r) by congruence. reflexivity.
Qed.

(** The texts that a pattern fits, with the groups and what follows. *)
Inductive fits : list item -> list string -> string -> string -> Prop :=
| fits_nil s : fits [] [] s s
| fits_lit l m r g s e : lower m = lower l -> fits r g s e -> fits (Lit l :: r) g (m ++ s) e
| fits_cap l m r g s e : lower m = lower l -> fits r g s e -> fits (CapLit l :: r) (m :: g) (m ++ s) e
| fits_one cls c r g s e : cls c = true -> fits r g s e -> fits (One cls :: r) g (String c s) e
| fits_star cls m r g s e : all_in cls m -> fits r g s e -> fits (Star cls :: r) g (m ++ s) e
| fits_capstar cls m r g s e : all_in cls m -> fits r g s e -> fits (CapStar cls :: r) (m :: g) (m ++ s) e.
Lemma fits_sound : forall p s g e, rmatch true p s = Some (g, e) -> fits p g s e.
Proof.
  induction p as [|i p IH]; intros s g e H.
  - cbn [rmatch] in H. assert (g = []) as -> by congruence. assert (s = e) as -> by congruence. constructor.
  - destruct i as [l|l|cls|cls|cls]; cbn [rmatch] in H.
    + destruct (strip_lit true l s) as [[m r]|] eqn:E; [|discriminate H]. apply strip_sound in E as [-> L]. constructor; [exact L|exact (IH _ _ _ H)].
    + destruct (strip_lit true l s) as [[m r]|] eqn:E; [|discriminate H]. apply strip_sound in E as [-> L]. destruct (rmatch true p r) as [[g' e']|] eqn:F; [|discriminate H].
      assert (g = m :: g') as -> by congruence. assert (e' = e) as -> by congruence. constructor; [exact L|exact (IH _ _ _ F)].
    + destruct s as [|c s]; [discriminate H|]. destruct (cls c) eqn:E; [|discriminate H]. constructor; [exact E|exact (IH _ _ _ H)].
    + destruct (star cls (rmatch true p) s) as [[m x]|] eqn:E; [|discriminate H]. assert (x = (g, e)) as -> by congruence. apply star_sound in E as (t & -> & A & K).
      constructor; [exact A|exact (IH _ _ _ K)].
    + destruct (star cls (rmatch true p) s) as [[m [g' e']]|] eqn:E; [|discriminate H]. assert (g = m :: g') as -> by congruence. assert (e' = e) as -> by congruence.
      apply star_sound in E as (t & -> & A & K). constructor; [exact A|exact (IH _ _ _ K)].
Qed.
Lemma fits_complete : forall p g s e, fits p g s e -> exists y, rmatch true p s = Some y.
Proof.
  intros p g s e H. induction H as [s|l m r g s e L H [y IH]|l m r g s e L H [[y1 y2] IH]|cls c r g s e C H [y IH]|cls m r g s e A H [y IH]|cls m r g s e A H [y IH]]; cbn [rmatch].
  - eexists. reflexivity.
  - rewrite (strip_complete l m s L). exists y. exact IH.
  - rewrite (strip_complete l m s L), IH. eexists. reflexivity.
  - rewrite C. exists y. exact IH.
  - destruct (star_complete _ cls (rmatch true r) m s y A IH) as [[z x] E]. rewrite E. exists x. reflexivity.
  - destruct (star_complete _ cls (rmatch true r) m s y A IH) as [[z [x1 x2]] E]. rewrite E. eexists. reflexivity.
Qed.

(** ** The word noqa *)

Lemma prefix_app : forall p s, String.prefix p s = true -> exists y, s = (p ++ y)%string.
Proof.
  induction p as [|a p IH]; intros s H; [exists s; reflexivity|]. destruct s as [|b s]; cbn [String.prefix] in H; [discriminate H|]. destruct (ascii_dec a b) as [->|]; [|discriminate H].
  destruct (IH s H) as [y ->]. exists y. reflexivity.
Qed.
Lemma contains_sound : forall p s, contains p s = true -> exists x y, s = (x ++ p ++ y)%string.
Proof.
  intro p. induction s as [|c s IH]; intro H; cbn [contains] in H; apply orb_prop in H as [H|H].
  - apply prefix_app in H as [y ->]. exists ""%string, y. reflexivity.
  - discriminate H.
  - apply prefix_app in H as [y H]. exists ""%string, y. exact H.
  - destruct (IH H) as (x & y & ->). exists (String c x), y. reflexivity.
Qed.
Lemma contains_end : forall s, contains "noqa" (s ++ "noqa") = true.
Proof.
  induction s as [|c s IH]; [reflexivity|]. cbn [append contains]. rewrite IH. apply orb_true_r.
Qed.
Lemma white_no_q : forall s, every white s -> count_char "q" (lower s) = 0.
Proof.
  induction s as [|c s IH]; intros H; [reflexivity|]. destruct H as [W H]. cbn [lower count_char]. rewrite (IH H).
  replace (Ascii.eqb (lower_ascii c) "q") with false; [reflexivity|]. apply space_white in W. destruct c as [[] [] [] [] [] [] [] []]; vm_compute in W; try discriminate W; reflexivity.
Qed.
Lemma noqa_flake8 : forall t, spelled FLAKE8_L t -> contains "noqa" (lower t) = true.
Proof.
  intros t H. inversion H as [u L|a sp b A S L|]; subst; [rewrite L; reflexivity|]. rewrite !lower_app, L, A. change ("flake8:" ++ lower sp ++ "noqa")%string with ("flake8:" ++ (lower sp ++ "noqa"))%string.
  assert (X : forall x y, contains "noqa" y = true -> contains "noqa" (x ++ y) = true).
  { induction x as [|c x IH]; intros y Y; [exact Y|]. cbn [append contains]. rewrite (IH y Y). apply orb_true_r. }
  apply X, contains_end.
Qed.
Lemma noqa_pylint : forall t, spelled PYLINT_L t -> contains "noqa" (lower t) = false.
Proof.
  intros t H. inversion H as [|a sp b A S L|a sp b A S L]; subst. destruct (contains "noqa" (lower (a ++ sp ++ b))) eqn:C; [|reflexivity]. exfalso.
  apply contains_sound in C as (x & y & E). apply (f_equal (count_char "q")) in E. rewrite !lower_app, A in E. rewrite !count_app in E. rewrite (white_no_q sp S) in E.
  assert (B : count_char "q" (lower b) = 0) by (destruct L as [-> | ->]; reflexivity). rewrite B in E. change (count_char "q" "pylint:") with 0 in E. change (count_char "q" "noqa") with 1 in E. lia.
Qed.

(** ** Patterns and comments *)

Lemma ib111_iff : forall line, (exists y, rmatch true ib111_re line = Some y) <-> names_ib111 line.
Proof.
  intro line. split.
  - intros [[g e] H]. apply fits_sound in H. unfold ib111_re in H.
    inversion H as [| | | |cls1 pre r1 g1 s1 e1 A1 H1|]; subst. inversion H1 as [|l2 a r2 g2 s2 e2 A2 H2| | | |]; subst. inversion H2 as [| | |cls3 x r3 g3 s3 e3 A3 H3| |]; subst.
    inversion H3 as [| | | |cls4 s r4 g4 s4 e4 A4 H4|]; subst. inversion H4 as [|l5 b r5 g5 s5 e5 A5 H5| | | |]; subst. inversion H5 as [| | |cls6 y r6 g6 s6 e6 A6 H6| |]; subst.
    inversion H6 as [| | | |cls7 t r7 g7 s7 e7 A7 H7|]; subst. inversion H7 as [|l8 c r8 g8 s8 e8 A8 H8| | | |]; subst. inversion H8; subst.
    exists pre, a, x, s, b, y, t, c, e. split; [reflexivity|]. split; [apply (every_all _ _ any_inline); exact A1|]. split; [exact A2|]. split; [apply space_white; exact A3|].
    split; [apply (every_all _ _ space_white); exact A4|]. split; [exact A5|]. split; [apply space_white; exact A6|]. split; [apply (every_all _ _ space_white); exact A7|exact A8].
  - intros (pre & a & x & s & b & y & t & c & rest & -> & A1 & A2 & A3 & A4 & A5 & A6 & A7 & A8). apply (fits_complete ib111_re [] _ rest). unfold ib111_re.
    apply fits_star; [apply (every_all _ _ any_inline); exact A1|]. apply fits_lit; [exact A2|]. apply fits_one; [apply space_white; exact A3|]. apply fits_star; [apply (every_all _ _ space_white); exact A4|].
    apply fits_lit; [exact A5|]. apply fits_one; [apply space_white; exact A6|]. apply fits_star; [apply (every_all _ _ space_white); exact A7|]. apply fits_lit; [exact A8|]. apply fits_nil.
Qed.
Lemma hash_sound : forall p groups s e, fits (any_hash ++ p) groups s e ->
  exists pre sp g t, groups = pre :: g /\ s = (pre ++ "#" ++ sp ++ t)%string /\ every inline pre /\ every white sp /\ fits p g t e.
Proof.
  intros p groups s e H. unfold any_hash in H. cbn [app] in H. inversion H as [| | | | |cls1 pre r1 g1 s1 e1 A1 H1]; subst. inversion H1 as [|l2 h r2 g2 s2 e2 A2 H2| | | |]; subst.
  inversion H2 as [| | | |cls3 sp r3 g3 s3 e3 A3 H3|]; subst. exists pre, sp, g1, s3. split; [reflexivity|]. split.
  - assert (h = "#"%string) as ->; [|reflexivity]. destruct h as [|c [|d h]]; try discriminate A2. cbn [lower] in A2. assert (E : lower_ascii c = "#"%char) by (assert (X := f_equal (fun z => match z with String k _ => k | _ => c end) A2); exact X).
    clear -E. destruct c as [[] [] [] [] [] [] [] []]; vm_compute in E; try discriminate E; reflexivity.
  - split; [apply (every_all _ _ any_inline); exact A1|]. split; [apply (every_all _ _ space_white); exact A3|exact H3].
Qed.
Lemma pattern_sound : forall l p groups s e, In p (config_patterns l) -> fits p groups s e ->
  exists g r, groups = g :: r /\ comment l s (String.length g) (String.concat "" r).
Proof.
  intros l p groups s e I H.
  assert (G : exists q, p = any_hash ++ q /\ forall g t, fits q g t e -> exists rest, t = (String.concat "" g ++ rest)%string /\ spelled l (String.concat "" g)).
  { assert (One_ : forall w g t, fits [CapLit w] g t e -> exists m rest, g = [m] /\ t = (m ++ rest)%string /\ lower m = lower w).
    { intros w g t F. inversion F as [| |l1 m r1 g1 s1 e1 A1 H1| | |]; subst. inversion H1; subst. exists m, e. split; [reflexivity|]. split; [reflexivity|exact A1]. }
    assert (Three : forall w cls v g t, fits [CapLit w; CapStar cls; CapLit v] g t e -> exists a sp b rest, g = [a; sp; b] /\ t = ((a ++ sp ++ b) ++ rest)%string /\ lower a = lower w /\ all_in cls sp /\ lower b = lower v).
    { intros w cls v g t F. inversion F as [| |l1 a r1 g1 s1 e1 A1 H1| | |]; subst. inversion H1 as [| | | | |cls2 sp r2 g2 s2 e2 A2 H2]; subst. destruct (One_ v g2 s2 H2) as (b & rest & -> & -> & L).
      exists a, sp, b, rest. split; [reflexivity|]. split; [rewrite !app_assoc_s; reflexivity|]. split; [exact A1|]. split; [exact A2|exact L]. }
    destruct l; cbn [config_patterns In] in I; [destruct I| |].
    - destruct I as [<-|[<-|[]]]; unfold disable_pattern, enable_pattern; eexists; (split; [reflexivity|]); intros g t F; destruct (Three _ _ _ _ _ F) as (a & sp & b & rest & -> & -> & A & B & C);
        exists rest; (split; [reflexivity|]); apply (spelled_pylint a sp b); try exact A; try (apply (every_all _ _ space_white); exact B); [left|right]; exact C.
    - destruct I as [<-|[<-|[]]]; unfold noqa_pattern, flake8_pattern; eexists; (split; [reflexivity|]); intros g t F.
      + destruct (One_ _ _ _ F) as (m & rest & -> & -> & A). exists rest. split; [reflexivity|]. apply spelled_noqa. exact A.
      + destruct (Three _ _ _ _ _ F) as (a & sp & b & rest & -> & -> & A & B & C). exists rest. split; [reflexivity|]. apply (spelled_flake8 a sp b); [exact A|apply (every_all _ _ blank_eq); exact B|exact C]. }
  destruct G as (q & -> & G). destruct (hash_sound q groups s e H) as (pre & sp & g & t & -> & -> & A & B & F). destruct (G g t F) as (rest & -> & Sp).
  exists pre, g. split; [reflexivity|]. exists pre, sp, rest. split; [reflexivity|]. split; [reflexivity|]. split; [exact A|]. split; [exact B|exact Sp].
Qed.
Lemma pattern_complete : forall l line column text, comment l line column text ->
  exists p q pre t, In p (config_patterns l) /\ p = CapStar any_char :: q /\ line = (pre ++ t)%string /\ column = String.length pre /\ all_in any_char pre /\ exists y, rmatch true q t = Some y.
Proof.
  intros l line column text (pre & sp & rest & -> & -> & A & B & Sp).
  assert (G : exists p g, In (any_hash ++ p) (config_patterns l) /\ fits p g (text ++ rest) rest).
  { destruct Sp as [t L|a s b L1 L2 L3|a s b L1 L2 [L3|L3]].
    - exists [CapLit "noqa"], [t]. split; [left; reflexivity|]. apply fits_cap; [exact L|apply fits_nil].
    - exists [CapLit "flake8:"; CapStar (Ascii.eqb " "); CapLit "noqa"], [a; s; b]. split; [right; left; reflexivity|]. rewrite !app_assoc_s. apply fits_cap; [exact L1|].
      apply fits_capstar; [apply (every_all _ _ blank_eq); exact L2|]. apply fits_cap; [exact L3|apply fits_nil].
    - exists [CapLit "pylint:"; CapStar is_space; CapLit "disable"], [a; s; b]. split; [left; reflexivity|]. rewrite !app_assoc_s. apply fits_cap; [exact L1|].
      apply fits_capstar; [apply (every_all _ _ space_white); exact L2|]. apply fits_cap; [exact L3|apply fits_nil].
    - exists [CapLit "pylint:"; CapStar is_space; CapLit "enable"], [a; s; b]. split; [right; left; reflexivity|]. rewrite !app_assoc_s. apply fits_cap; [exact L1|].
      apply fits_capstar; [apply (every_all _ _ space_white); exact L2|]. apply fits_cap; [exact L3|apply fits_nil]. }
  destruct G as (p & g & I & F). exists (any_hash ++ p), ([Lit "#"; Star is_space] ++ p), pre, ("#" ++ sp ++ text ++ rest)%string.
  split; [exact I|]. split; [reflexivity|]. split; [reflexivity|]. split; [reflexivity|]. split; [apply (every_all _ _ any_inline); exact A|].
  apply (fits_complete _ g _ rest). cbn [app]. apply fits_lit; [reflexivity|]. apply fits_star; [apply (every_all _ _ space_white); exact B|exact F].
Qed.
Lemma asked_iff : forall ignore p, In p (patterns ignore) <-> exists l, asked ignore l /\ In p (config_patterns l).
Proof.
  intros ignore p. unfold patterns. rewrite in_flat_map.
  assert (Safe : forall s l, linter_safe_from_name s = Some l <-> lower s = linter_name l).
  { intros s l. unfold linter_safe_from_name, all_linters. cbn [find]. destruct (String.eqb_spec (linter_name EDULINT_L) (lower s)) as [E1|N1]; [|destruct (String.eqb_spec (linter_name PYLINT_L) (lower s)) as [E2|N2]; [|destruct (String.eqb_spec (linter_name FLAKE8_L) (lower s)) as [E3|N3]]].
    - rewrite <- E1. destruct l; cbn [linter_name]; split; congruence.
    - rewrite <- E2. destruct l; cbn [linter_name]; split; congruence.
    - rewrite <- E3. destruct l; cbn [linter_name]; split; congruence.
    - split; [discriminate|]. intro E. destruct l; congruence. }
  assert (All : existsb (String.eqb "all") ignore = true <-> In "all"%string ignore).
  { rewrite existsb_exists. split; [intros (x & I & E); apply String.eqb_eq in E as <-; exact I|]. intro I. exists "all"%string. split; [exact I|reflexivity]. }
  assert (Name : forall l, lower (linter_name l) = linter_name l) by (intros []; reflexivity).
  split.
  - intros (s & I & P). destruct (linter_safe_from_name s) as [l|] eqn:E; [|destruct P]. exists l. split; [|exact P]. apply Safe in E. unfold expand in I. destruct (existsb (String.eqb "all") ignore) eqn:X.
    + left. apply All. reflexivity.
    + right. exists s. split; [exact I|exact E].
  - intros (l & A & P). unfold expand. destruct (existsb (String.eqb "all") ignore) eqn:X.
    + exists (linter_name l). split; [apply in_or_app; right; destruct l; cbn; tauto|]. rewrite (proj2 (Safe _ l) (Name l)). exact P.
    + destruct A as [A|(s & I & E)]; [apply All in A; discriminate A|]. exists s. split; [exact I|]. rewrite (proj2 (Safe s l) E). exact P.
Qed.
Lemma lines_in : forall ps path m lines i, In m (report_lines ps path i lines) <-> exists k line p, nth_error lines k = Some line /\ In p ps /\ In m (report_pattern path (i + k) line p).
Proof.
  intros ps path m. induction lines as [|line lines IH]; intro i; cbn [report_lines].
  - split; [intros []|]. intros (k & line & p & E & _). destruct k; discriminate E.
  - rewrite in_app_iff, in_flat_map, IH. split.
    + intros [(p & P & H)|(k & line' & p & E & P & H)]; [exists 0, line, p; rewrite Nat.add_0_r; auto|]. exists (S k), line', p. rewrite Nat.add_succ_r. auto.
    + intros ([|k] & line' & p & E & P & H).
      * cbn [nth_error] in E. assert (line' = line) as -> by congruence. rewrite Nat.add_0_r in H. left. exists p. auto.
      * right. exists k, line', p. rewrite Nat.add_succ_r in H. auto.
Qed.
Theorem found : forall files ignore path lines i line l column text, In (path, lines) files -> nth_error lines i = Some line -> asked ignore l -> comment l line column text ->
  l = PYLINT_L \/ ~ names_ib111 line -> exists m, In m (report_infile_config files ignore) /\ m_path m = path /\ m_line m = S i /\ column <= m_column m.
Proof.
  intros files ignore path lines i line l column text If Il As Co Ex. destruct (pattern_complete l line column text Co) as (p & q & pre & t & Ip & -> & -> & -> & Ap & y & Y).
  destruct (star_complete _ any_char (rmatch true q) pre t y Ap Y) as [[g [gs e]] St].
  assert (R : rmatch true (CapStar any_char :: q) (pre ++ t) = Some (g :: gs, e)) by (cbn [rmatch]; rewrite St; reflexivity).
  assert (Lo : String.length pre <= String.length g) by (apply (star_longest _ any_char (rmatch true q) _ g _ St pre t eq_refl Ap); congruence).
  eexists {| m_path := path; m_line := S i; m_column := String.length g; m_text := String.concat "" gs; m_end := String.length (pre ++ t) |}.
  split; [|split; [reflexivity|split; [reflexivity|exact Lo]]]. unfold report_infile_config. apply in_flat_map. exists (path, lines). split; [exact If|]. cbn [fst snd]. apply lines_in.
  exists i, (pre ++ t)%string, (CapStar any_char :: q). split; [exact Il|]. split; [apply asked_iff; exists l; split; [exact As|exact Ip]|]. unfold report_pattern. rewrite R.
  destruct (pattern_sound l _ _ _ _ Ip (fits_sound _ _ _ _ R)) as (g0 & r0 & E0 & Co'). assert (r0 = gs) as -> by congruence. destruct Co' as (_ & _ & _ & _ & _ & _ & _ & Sp).
  destruct Ex as [->|N].
  - rewrite (noqa_pylint _ Sp). left. reflexivity.
  - destruct (rmatch true ib111_re (pre ++ t)) as [z|] eqn:Z; [destruct N; apply ib111_iff; exists z; exact Z|]. rewrite orb_true_r. left. reflexivity.
Qed.
Theorem only_comments : forall files ignore m, In m (report_infile_config files ignore) ->
  exists lines i line l, In (m_path m, lines) files /\ m_line m = S i /\ nth_error lines i = Some line /\ asked ignore l /\ comment l line (m_column m) (m_text m) /\
    m_end m = String.length line /\ (l = PYLINT_L \/ ~ names_ib111 line).
Proof.
  intros files ignore m H. unfold report_infile_config in H. apply in_flat_map in H as ((path & lines) & If & H). cbn [fst snd] in H. apply lines_in in H as (i & line & p & Il & Ip & H).
  apply asked_iff in Ip as (l & As & Ip). unfold report_pattern in H. destruct (rmatch true p line) as [[[|g gs] e]|] eqn:R; try destruct H.
  destruct (pattern_sound l p _ _ _ Ip (fits_sound _ _ _ _ R)) as (g0 & r0 & E0 & Co). assert (r0 = gs) as -> by congruence. assert (g0 = g) as -> by congruence.
  destruct (negb (contains "noqa" (lower (String.concat "" gs))) || match rmatch true ib111_re line with None => true | Some _ => false end) eqn:C; [|destruct H].
  destruct H as [<-|[]]. exists lines, i, line, l. cbn [m_path m_line m_column m_text m_end]. split; [exact If|]. split; [reflexivity|]. split; [exact Il|]. split; [exact As|]. split; [exact Co|]. split; [reflexivity|].
  destruct Co as (_ & _ & _ & _ & _ & _ & _ & Sp). destruct l; [inversion Sp|left; reflexivity|]. right. intro N. apply ib111_iff in N as [z Z]. rewrite (noqa_flake8 _ Sp), Z in C. discriminate C.
Qed.
