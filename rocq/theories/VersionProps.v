(** The properties of the version check and of the explanations (C30-C32, C74-C80), with examples. *)
From Coq Require Import String Ascii List Bool Arith ZArith Sorted Lia.
From Verif Require Import Base TranslateModel VersionModel VersionSpec VersionProofs VersionExamples.
Import ListNotations.
Local Open Scope string_scope.
Local Open Scope list_scope.

(** C30: whatever the index and the disk do, attempts to ask the index are at least [ttl] apart. *)
Theorem C30_rate : forall V parse show major minor micro cs ttl p, in_order 0 cs ->
  spaced ttl (times p (asked (checks V parse show major minor micro cs ttl fresh_start))).
Proof. exact rate. Qed.
Print Assumptions C30_rate.

Example C30_nonvacuous :
  in_order 0 [at_time 1000 (Raise OSError); at_time 1599 releases; at_time 1600 releases; at_time 1700 releases] /\
  times "edulint" (asked (all_checks [at_time 1000 (Raise OSError); at_time 1599 releases; at_time 1600 releases; at_time 1700 releases] 600 fresh_start)) =
    [1000%Z; 1600%Z].
Proof. split; [cbn; lia|vm_compute; reflexivity]. Qed.

(** C80 fails: the help promises one check per hour, the limit in use is ten minutes. *)
Theorem C80_hour_refuted : in_order 0 [at_time 1000 releases; at_time 1600 releases] /\
  times "edulint" (asked (all_checks [at_time 1000 releases; at_time 1600 releases] version_ttl fresh_start)) = [1000%Z; 1600%Z].
Proof. exact within_hour. Qed.
Print Assumptions C80_hour_refuted.

(** C31 fails: an update is announced if the index does not answer, and if the installed version is
    the newer one. *)
Theorem C31_unreachable_refuted :
  announce (Some "4.1.0") (at_time 1000 (Raise OSError)) (at_time 1000 (Raise OSError)) fresh_start = Some (Ok (Some None)).
Proof. exact unreachable_announced. Qed.
Print Assumptions C31_unreachable_refuted.

Theorem C31_older_refuted :
  announce (Some "5.0.0") (at_time 1000 releases) (at_time 1000 releases) fresh_start = Some (Ok (Some (Some "4.1.0"))).
Proof. exact older_announced. Qed.
Print Assumptions C31_older_refuted.

(** If the index is asked and answers: nothing is announced for the newest version, and an update is
    announced for a version older than one offered. *)
Theorem C31_current_partial : forall V parse show major minor micro c ttl w d l v, file w = Data d ->
  (started (info_of (package c) d) + ttl <= check_time c)%Z -> first_save c = Saved -> second_save c = Saved -> index c = Ok l ->
  offered V parse major (package c) l v ->
  (forall u, offered V parse major (package c) l u -> u = v \/ older V major minor micro u v) ->
  snd (is_update_waiting V parse show major minor micro (Some (show v)) c ttl w) = Some (Ok false).
Proof. exact current. Qed.
Print Assumptions C31_current_partial.

Theorem C31_newer_partial : forall V parse show major minor micro c ttl w d l v u, file w = Data d ->
  (started (info_of (package c) d) + ttl <= check_time c)%Z -> first_save c = Saved -> second_save c = Saved -> index c = Ok l ->
  (forall a b, show a = show b -> a = b) -> offered V parse major (package c) l u -> older V major minor micro v u ->
  snd (is_update_waiting V parse show major minor micro (Some (show v)) c ttl w) = Some (Ok true).
Proof. exact newer. Qed.
Print Assumptions C31_newer_partial.

Example C31_nonvacuous : snd (waiting (Some "4.1.0") (at_time 1000 releases) 600 {| file := Data []; asked := [] |}) = Some (Ok false) /\
  snd (waiting (Some "4.0.9") (at_time 1000 releases) 600 {| file := Data []; asked := [] |}) = Some (Ok true).
Proof. split; vm_compute; reflexivity. Qed.

(** C32 fails: downloaded explanations never matter. *)
Theorem C32_downloaded_refuted : exists a e,
  update_thread a 600 {| online := None; last_update := None; fetched := [] |} = downloaded "new" /\
  reply a = Some (200%Z, "new") /\ tiny_load "new" = Ok e /\
  get_explanations tiny_load (Some "old") (downloaded "new") <> Ok e /\
  get_explanations tiny_load (Some "old") (downloaded "new") = tiny_load "old".
Proof. exact download_not_shown. Qed.
Print Assumptions C32_downloaded_refuted.

Theorem C32_never_used : forall load pip w w', get_explanations load pip w = get_explanations load pip w'.
Proof. exact online_ignored. Qed.
Print Assumptions C32_never_used.

(** C74 fails: after a check was killed while writing, every later one fails. *)
Theorem C74_killed_refuted : forall cs c ttl,
  snd (latest c ttl (all_checks cs ttl (fst (latest killed 600 fresh_start)))) = Some (Raise JSONDecodeError).
Proof. exact killed_forever. Qed.
Print Assumptions C74_killed_refuted.

(** C75 fails for release candidates; numbers are respected. *)
Theorem C75_candidate_refuted :
  snd (latest (at_time 1000 (Ok [("4.1.0", [false]); ("4.1.0rc1", [false])])) 600 fresh_start) = Some (Ok (Some "4.1.0rc1")) /\
  ver_lt {| ma := 4; mi := 1; pa := 0; candidate := true |} {| ma := 4; mi := 1; pa := 0; candidate := false |} = true.
Proof. exact candidate_latest. Qed.
Print Assumptions C75_candidate_refuted.

Theorem C75_numbers_partial : forall V parse show major minor micro cs c ttl s,
  snd (get_latest V parse show major minor micro c ttl (checks V parse show major minor micro cs ttl fresh_start)) = Some (Ok (Some s)) ->
  exists c' l v, In c' (cs ++ [c]) /\ package c' = package c /\ index c' = Ok l /\ offered V parse major (package c) l v /\ s = show v /\
    forall u, offered V parse major (package c) l u -> ~ older V major minor micro v u.
Proof. exact reported. Qed.
Print Assumptions C75_numbers_partial.

Example C75_nonvacuous : snd (latest (at_time 1001 (Raise OSError)) 600 (all_checks [at_time 1000 releases] 600 fresh_start)) = Some (Ok (Some "4.1.0")).
Proof. vm_compute. reflexivity. Qed.

(** C76: attempts to download explanations are at least [ttl] apart. *)
Theorem C76_rate : forall l ttl, in_order_attempts 0 l ->
  spaced ttl (fetched (attempts l ttl {| online := None; last_update := None; fetched := [] |})).
Proof. exact explanations_rate. Qed.
Print Assumptions C76_rate.

Example C76_nonvacuous :
  let a t := {| db_works := true; read_time := t; write_time := t; reply := None; stored_text := None |} in
  in_order_attempts 0 [a 700%Z; a 1299%Z; a 1300%Z] /\
  fetched (attempts [a 700%Z; a 1299%Z; a 1300%Z] 600 {| online := None; last_update := None; fetched := [] |}) = [700%Z; 1300%Z].
Proof. split; [cbn; lia|vm_compute; reflexivity]. Qed.

(** C77 fails: 'explain' updates explanations though it was told not to. Otherwise the switches work. *)
Theorem C77_explain_refuted : exists v, In ExplanationsUpdate (threads v true ExplainCommand).
Proof. exact (ex_intro _ true (or_introl eq_refl)). Qed.
Print Assumptions C77_explain_refuted.

Theorem C77_switches_partial : forall v e c,
  (In UpdateCheck (threads v e c) <-> v = false) /\
  (In ExplanationsUpdate (threads v e c) <-> e = false \/ c = ExplainCommand).
Proof.
  intros [] [] []; cbn; split; split; intros H; repeat destruct H as [H|H]; try discriminate; try contradiction; auto.
Qed.
Print Assumptions C77_switches_partial.

(** C78: exactly the explanations asked for are given, each once; the others are warned about. *)
Theorem C78_explained : forall load pip w ids expl, get_explanations load pip w = Ok expl -> (forall i, In i ids -> ~ spells_all i) ->
  exists d, explain load pip ids w = Ok (d, filter (fun i => match dget i expl with None => true | _ => false end) ids) /\
    NoDup (map fst d) /\ forall i e, dget i d = Some e <-> In i ids /\ dget i expl = Some e.
Proof. exact explain_some. Qed.
Print Assumptions C78_explained.

Theorem C78_all : forall load pip w ids expl, get_explanations load pip w = Ok expl -> (exists i, In i ids /\ spells_all i) ->
  exists d, explain load pip ids w = Ok (d, []) /\ NoDup (map fst d) /\ forall i, dget i d = dget i expl.
Proof. exact explain_all. Qed.
Print Assumptions C78_all.

Example C78_nonvacuous :
  explain tiny_load (Some "x") ["F401"; "X"; "F401"] (downloaded "y") = Ok ([("F401", [("why", "unused")])], ["X"]) /\
  explain tiny_load (Some "x") ["X"; "aLL"] (downloaded "y") = Ok ([("C0104", [("why", "x")]); ("F401", [("why", "unused")])], []).
Proof. split; vm_compute; reflexivity. Qed.

(** C79: of every minor version the newest patch is chosen, in ascending order. *)
Theorem C79_patches : forall V major minor lt, version_order V lt -> forall vs,
  (forall v, In v (last_patches V major minor lt vs) -> In v vs /\ forall u, In u vs -> same_minor V major minor u v -> lt v u = false) /\
  (forall u, In u vs -> exists v, In v (last_patches V major minor lt vs) /\ same_minor V major minor u v) /\
  StronglySorted (before_minor V major minor) (last_patches V major minor lt vs).
Proof. exact patches. Qed.
Print Assumptions C79_patches.

Example C79_nonvacuous : version_order ver ver_lt /\
  map ver_show (last_patches ver ma mi ver_lt some_versions) = ["2.9.0"; "4.0.9"; "4.1.1"; "5.0.0"].
Proof. split; [exact ver_order|vm_compute; reflexivity]. Qed.
