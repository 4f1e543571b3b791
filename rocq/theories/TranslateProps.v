(** The properties of translations (C24, C69, C70), with examples. *)
From Coq Require Import String Ascii List Bool Arith ZArith.
From Verif Require Import Base ConfigModel ConfigFileModel RegexModel LintModel LintSpec LintExamples TweakSpec TranslateModel
  TranslateSpec TranslateProofs TranslateExamples.
Import ListNotations.
Local Open Scope string_scope.
Local Open Scope list_scope.

(** C24: the message rendered from the linter's text with [ss] is translated into the template
    filled with the translations of [ss], if there is only one snippet or the message can be taken
    apart in one way only. *)
Theorem C24_translated : forall messages show t code text m ss d words ps out,
  messages code = Some m -> ss <> [] -> renders m ss text -> no_doubled m -> lacks "010" m -> Forall (lacks "010") ss ->
  (List.length ss = 1 \/ forall other, splits m other text -> other = ss) ->
  extracts t = TTable d -> replaced_all d 1 ss words ->
  ConfigFileModel.template t = spell ps -> consistent ps -> filled words 0 ps out ->
  translate messages show t code text = Ok out.
Proof. exact translate_unique. Qed.
Print Assumptions C24_translated.

Example C24_nonvacuous :
  (exists m ss words, flake8_messages "F811" = Some m /\ renders m ss "redefinition of unused 'f' from line 3" /\ no_doubled m /\
    Forall (lacks "010") ss /\
    extracts redefinition = TTable [("1", TTable [("'f'", TStr "funkce f")])] /\
    replaced_all [("1", TTable [("'f'", TStr "funkce f")])] 1 ss words /\
    ConfigFileModel.template redefinition = spell [At 1; Say ": {znovu} "; At 0] /\ consistent [At 1; Say ": {znovu} "; At 0] /\
    filled words 0 [At 1; Say ": {znovu} "; At 0] "3: {znovu} funkce f" /\
    (forall other, splits m other "redefinition of unused 'f' from line 3" -> other = ss)) /\
  translate flake8_messages no_show redefinition "F811" "redefinition of unused 'f' from line 3" = Ok "3: {znovu} funkce f".
Proof. exact (conj translated_example eq_refl). Qed.

(** Which messages of flake8 the theorem speaks about. *)
Theorem C24_flake8_messages : forall code m, flake8_messages code = Some m -> ~ In code doubled_codes -> no_doubled m.
Proof. exact flake8_no_doubled. Qed.
Print Assumptions C24_flake8_messages.

(** A snippet resembling the text between the holes is split in the wrong place. *)
Example C24_ambiguous :
  renders "%r from %s" ["a from b"; "c"] "a from b from c" /\ renders "%r from %s" ["a"; "b from c"] "a from b from c" /\
  translate (fun _ => Some "%r from %s") no_show (plain "{1}/{0}") "X" "a from b from c" = Ok "c/a from b".
Proof.
  split; [|split; [|reflexivity]].
  - apply (renders_hole "r" _ "a from b"); [cbn; auto|]. repeat (apply renders_char; [discriminate|]).
    apply (renders_hole "s" _ "c" [] ""); [cbn; auto|apply renders_nil].
  - apply (renders_hole "r" _ "a"); [cbn; auto|]. repeat (apply renders_char; [discriminate|]).
    apply (renders_hole "s" _ "b from c" [] ""); [cbn; auto|apply renders_nil].
Qed.

(** C69 fails: for F501-F509 and for reworded messages the bare template is shown. *)
Theorem C69_doubled_refuted : forall code m ss text t, In code doubled_codes -> flake8_messages code = Some m -> renders m ss text ->
  translate flake8_messages no_show t code text = Ok (ConfigFileModel.template t).
Proof. exact doubled_raw. Qed.
Print Assumptions C69_doubled_refuted.

Theorem C69_placeholder_refuted : exists code m ss text t, flake8_messages code = Some m /\ renders m ss text /\ ss = ["2"; "1"] /\
  translate flake8_messages no_show (plain t) code text = Ok t /\ t = "{} places, {} values".
Proof. exact raw_witness. Qed.
Print Assumptions C69_placeholder_refuted.

Theorem C69_reworded_refuted : exists p q r,
  text p = ("Disallowed name " ++ quote ++ "o" ++ quote)%string /\
  apply_tweaks [p] tweaker_of tweak_config = Ok [q] /\
  translate_problem (translate pylint_messages no_show) langs q = Ok r /\ text r = "Jmeno {} neni dovoleno" /\
  translate pylint_messages no_show (plain "Jmeno {} neni dovoleno") "C0104" (text p) = Ok "Jmeno o neni dovoleno".
Proof. exact reworded_witness. Qed.
Print Assumptions C69_reworded_refuted.

(** C69 for messages as the linter rendered them, without doubled percent signs: every placeholder
    is filled with a translated snippet of some way of taking the message apart. *)
Theorem C69_filled_partial : forall messages show t code text m ss d ps,
  messages code = Some m -> ss <> [] -> renders m ss text -> no_doubled m -> lacks "010" m -> Forall (lacks "010") ss ->
  extracts t = TTable d -> well_formed d -> ConfigFileModel.template t = spell ps -> consistent ps -> fits (List.length ss) ps ->
  exists other words out, splits m other text /\ replaced_all d 1 other words /\ filled words 0 ps out /\
    translate messages show t code text = Ok out.
Proof. exact all_filled. Qed.
Print Assumptions C69_filled_partial.

Example C69_nonvacuous :
  well_formed [("1", TTable [("'f'", TStr "funkce f")])] /\ fits 2 [At 1; Say ": {znovu} "; At 0].
Proof.
  split.
  - intros i v H. cbn [dget] in H. destruct (String.eqb (dec i) "1"); [|discriminate]. injection H as <-.
    eexists. split; [reflexivity|]. intros w x X. cbn [dget] in X. destruct (String.eqb w "'f'"); [|discriminate].
    injection X as <-. eauto.
  - split; [cbn; auto|]. intros i H. cbn in H. destruct H as [H|[H|[H|[]]]]; try discriminate; injection H as <-; auto.
Qed.

(** C70 fails: a template with a placeholder too many ends the check, with status 0, though there
    are problems. *)
Theorem C70_bad_template_refuted : exists langs fds s ps,
  lint_many "/w" (fun _ => Done "x" "") (fun _ => Done "" "") unused (fun _ => Ok []) (fun _ _ => Ok [])
    (translate flake8_messages no_show) [(fds, tweak_config, [])] s = (s, Ok ps) /\ ps <> [] /\
  snd (lint_many "/w" (fun _ => Done "x" "") (fun _ => Done "" "") unused (fun _ => Ok []) (fun _ _ => Ok [])
    (translate flake8_messages no_show) [(fds, tweak_config, langs)] s) = Raise IndexError /\
  exit_status "/w" (fun _ => Done "x" "") (fun _ => Done "" "") unused (fun _ => Ok []) (fun _ _ => Ok [])
    (translate flake8_messages no_show) (fun _ => true) (fun _ => false) (fun _ => Ok [(fds, tweak_config, langs)]) fds s = 0%Z.
Proof. exact abort_witness. Qed.
Print Assumptions C70_bad_template_refuted.
