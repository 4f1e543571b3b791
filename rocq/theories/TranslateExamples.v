(** Concrete translations and counterexamples for TranslateProps. *)
From Coq Require Import String Ascii List Bool Arith ZArith.
From Verif Require Import Base ConfigModel ConfigFileModel RegexModel LintModel LintSpec LintProofs LintExamples TweakSpec TweakProofs
  TranslateModel TranslateSpec TranslateProofs.
Import ListNotations.
Local Open Scope string_scope.
Local Open Scope list_scope.

Definition flake8_messages (code : string) : option string := dget code FLAKE8_MESSAGES.
Definition no_show (v : toml) : string := "".
Definition plain (t : string) : translation := {| ConfigFileModel.template := t; extracts := TTable [] |}.

(** Messages with a doubled percent sign. *)
Definition doubled_codes : list string := ["F501"; "F502"; "F503"; "F504"; "F505"; "F506"; "F507"; "F508"; "F509"].
Lemma flake8_no_doubled : forall code m, flake8_messages code = Some m -> ~ In code doubled_codes -> no_doubled m.
Proof.
  intros code m H N [a [b E]]. apply dget_In in H.
  assert (F : forallb (fun e => str_in (fst e) doubled_codes || negb (contains "%%" (snd e))) FLAKE8_MESSAGES = true) by (vm_compute; reflexivity).
  rewrite forallb_forall in F. specialize (F _ H). cbn [fst snd] in F. apply orb_true_iff in F as [F|F].
  - apply str_in_iff in F. contradiction.
  - apply negb_true_iff in F. assert (contains "%%" m = true) by (apply contains_iff; eauto). congruence.
Qed.

Lemma renders_keep : forall s r ss text, lacks "%" s -> renders (s ++ r) ss text -> exists t, text = (s ++ t)%string /\ renders r ss t.
Proof.
  induction s as [|c s IH]; intros r ss text L H; [now exists text|]. apply lacks_cons in L as [N L]. cbn [append] in *.
  inversion H; subst; try congruence. destruct (IH _ _ _ L H5) as [t' [-> R]]. now exists t'.
Qed.
Lemma renders_doubled : forall r ss text, renders ("'...' %% " ++ r) ss text -> exists t, text = ("'...' % " ++ t)%string.
Proof.
  intros r ss text H. apply (renders_keep "'...' ") in H as [t [-> H]]; [|now apply free_of].
  inversion H; subst; try congruence.
  - destruct H2 as [X|[X|[X|[]]]]; discriminate.
  - apply (renders_keep " ") in H1 as [t [-> _]]; [|now apply free_of]. now exists t.
Qed.
Lemma doubled_raw : forall code m ss text t, In code doubled_codes -> flake8_messages code = Some m -> renders m ss text ->
  translate flake8_messages no_show t code text = Ok (ConfigFileModel.template t).
Proof.
  intros code m ss text t I M R.
  assert (X : exists r, m = ("'...' %% " ++ r)%string).
  { repeat (destruct I as [<-|I]; [vm_compute in M; inversion M; match goal with |- context [String _ _ = _] => eexists; reflexivity end|]).
    contradiction. }
  destruct X as [r ->]. apply renders_doubled in R as [u ->]. unfold translate. rewrite M.
  destruct (negb _); [reflexivity|].
  assert (N : rmatch true (to_pattern ("'...' %% " ++ r)) ("'...' % " ++ u) = None); [|now rewrite N].
  cbn [append to_pattern]. cbn -[to_pattern]. reflexivity.
Qed.
Lemma raw_witness : exists code m ss text t, flake8_messages code = Some m /\ renders m ss text /\ ss = ["2"; "1"] /\
  translate flake8_messages no_show (plain t) code text = Ok t /\ t = "{} places, {} values".
Proof.
  exists "F507". eexists. exists ["2"; "1"], "'...' % ... has 2 placeholder(s) but 1 substitution(s)", "{} places, {} values".
  split; [reflexivity|]. split; [|split; [reflexivity|split; [vm_compute; reflexivity|reflexivity]]].
  repeat (apply renders_char; [discriminate|]). apply renders_percent. repeat (apply renders_char; [discriminate|]).
  apply (renders_hole "d" _ "2"); [cbn; auto|]. repeat (apply renders_char; [discriminate|]).
  apply (renders_hole "d" _ "1"); [cbn; auto|]. repeat (apply renders_char; [discriminate|]). apply renders_nil.
Qed.

(** A reworded message does not match the pattern of its code any more. *)
Definition pylint_messages (code : string) : option string :=
  if String.eqb code "C0104" then Some ("Disallowed name " ++ quote ++ "%s" ++ quote)%string else None.
Definition langs : lang_translations := [("C0104", plain "Jmeno {} neni dovoleno")].
Lemma reworded_witness : exists p q r,
  text p = ("Disallowed name " ++ quote ++ "o" ++ quote)%string /\
  apply_tweaks [p] tweaker_of tweak_config = Ok [q] /\
  translate_problem (translate pylint_messages no_show) langs q = Ok r /\ text r = "Jmeno {} neni dovoleno" /\
  translate pylint_messages no_show (plain "Jmeno {} neni dovoleno") "C0104" (text p) = Ok "Jmeno o neni dovoleno".
Proof.
  exists (pylint_problem "a.py" 1 "C0104" ("Disallowed name " ++ quote ++ "o" ++ quote)). do 2 eexists.
  split; [reflexivity|]. split; [vm_compute; reflexivity|]. split; [vm_compute; reflexivity|]. split; vm_compute; reflexivity.
Qed.

(** A template with a placeholder too many. *)
Definition unused (s : string) : res (list flake8_raw) :=
  Ok [{| f_filename := "b.py"; f_line := 1; f_column := 1; f_code := "F401"; f_text := "'os' imported but unused" |}].
Lemma abort_witness : exists langs fds s ps,
  lint_many "/w" (fun _ => Done "x" "") (fun _ => Done "" "") unused (fun _ => Ok []) (fun _ _ => Ok [])
    (translate flake8_messages no_show) [(fds, tweak_config, [])] s = (s, Ok ps) /\ ps <> [] /\
  snd (lint_many "/w" (fun _ => Done "x" "") (fun _ => Done "" "") unused (fun _ => Ok []) (fun _ _ => Ok [])
    (translate flake8_messages no_show) [(fds, tweak_config, langs)] s) = Raise IndexError /\
  exit_status "/w" (fun _ => Done "x" "") (fun _ => Done "" "") unused (fun _ => Ok []) (fun _ _ => Ok [])
    (translate flake8_messages no_show) (fun _ => true) (fun _ => false) (fun _ => Ok [(fds, tweak_config, langs)]) fds s = 0%Z.
Proof.
  exists [("F401", plain "{} {}")], ["b.py"], {| out_stream := Given 1; err_stream := Given 2 |}. eexists.
  split; [vm_compute; reflexivity|]. split; [discriminate|]. split; vm_compute; reflexivity.
Qed.

(** A translation with a translated snippet. *)
Definition redefinition : translation :=
  {| ConfigFileModel.template := "{1}: {{znovu}} {0}";
     extracts := TTable [("1", TTable [("'f'", TStr "funkce f")])] |}.
Lemma translated_example :
  exists m ss words, flake8_messages "F811" = Some m /\ renders m ss "redefinition of unused 'f' from line 3" /\ no_doubled m /\
    Forall (lacks "010") ss /\
    extracts redefinition = TTable [("1", TTable [("'f'", TStr "funkce f")])] /\
    replaced_all [("1", TTable [("'f'", TStr "funkce f")])] 1 ss words /\
    ConfigFileModel.template redefinition = spell [At 1; Say ": {znovu} "; At 0] /\ consistent [At 1; Say ": {znovu} "; At 0] /\
    filled words 0 [At 1; Say ": {znovu} "; At 0] "3: {znovu} funkce f" /\
    (forall other, splits m other "redefinition of unused 'f' from line 3" -> other = ss).
Proof.
  eexists. exists ["'f'"; "3"], ["funkce f"; "3"]. split; [reflexivity|]. split.
  { repeat (apply renders_char; [discriminate|]). apply (renders_hole "r" _ "'f'"); [cbn; auto|].
    repeat (apply renders_char; [discriminate|]). apply (renders_hole "r" _ "3"); [cbn; auto|]. apply renders_nil. }
  split; [apply (flake8_no_doubled "F811"); [reflexivity|]; cbn; intros H; repeat (destruct H as [H|H]; [discriminate|]); exact H|].
  split; [repeat constructor; now apply free_of|]. split; [reflexivity|]. split.
  { constructor; [left; eexists; split; reflexivity|]. constructor; [right; split; [reflexivity|left; reflexivity]|constructor]. }
  split; [reflexivity|]. split; [left; cbn; intros H; repeat (destruct H as [H|H]; [discriminate|]); exact H|]. split.
  { apply (filled_at _ _ 1 "3"); [reflexivity|]. apply (filled_say _ _ ": {znovu} "). apply (filled_at _ _ 0 "funkce f"); [reflexivity|]. constructor. }
  intros other H. cbn [append] in H.
  repeat (apply splits_char_inv in H as [? [? [? [_ H]]]]; [|discriminate];
    match goal with E : _ = String _ _ |- _ => injection E as <- <- end).
  apply splits_hole_inv in H as [s1 [ss1 [t1 [-> [E1 [_ H]]]]]]; [|cbn; auto].
  assert (N : forall c r o, c <> "%"%char -> ~ splits (String c r) o "")
    by (intros c r o C X; apply splits_char_inv in X as [? [? [X _]]]; [discriminate|exact C]).
  assert (M : forall c d r o t, c <> "%"%char -> lower_ascii c <> lower_ascii d -> ~ splits (String c r) o (String d t))
    by (intros c d r o t C Q X; apply splits_char_inv in X as [? [? [X [Y _]]]]; [injection X as <- <-; contradiction|exact C]).
  do 3 (destruct s1 as [|? s1]; cbn [append] in E1;
    [subst t1; exfalso; revert H; apply M; [discriminate|vm_compute; discriminate]|injection E1 as <- E1]).
  destruct s1 as [|? s1]; cbn [append] in E1; [|exfalso; injection E1 as <- E1].
  - subst t1. repeat (apply splits_char_inv in H as [? [? [? [_ H]]]]; [|discriminate];
      match goal with E : _ = String _ _ |- _ => injection E as <- <- end).
    apply splits_hole_inv in H as [s2 [ss2 [t2 [-> [E2 [_ H]]]]]]; [|cbn; auto].
    inversion H; subst. rewrite app_nil_s in E2. now subst s2.
  - repeat (destruct s1 as [|? s1]; cbn [append] in E1;
      [subst t1; repeat (apply splits_char_inv in H as [? [? [? [? H]]]]; [|discriminate];
         match goal with E : _ = String _ _ |- _ => first [discriminate E|injection E as <- <-] end;
         match goal with E : same_letter _ _ |- _ => try (vm_compute in E; discriminate E); clear E end)
      |try discriminate E1; injection E1 as <- E1]).
Qed.
