(** Concrete versions and runs for VersionProps. *)
From Coq Require Import String Ascii List Bool Arith ZArith Lia.
From Verif Require Import Base TranslateModel VersionModel VersionSpec VersionProofs.
Import ListNotations.
Local Open Scope string_scope.
Local Open Scope list_scope.

(** Versions with three numbers, final or the first release candidate. *)
Record ver := { ma : nat; mi : nat; pa : nat; candidate : bool }.
Definition ver_show (v : ver) : string :=
  (dec (ma v) ++ "." ++ dec (mi v) ++ "." ++ dec (pa v) ++ (if candidate v then "rc1" else ""))%string.
Definition some_versions : list ver :=
  [{| ma := 4; mi := 0; pa := 9; candidate := false |}; {| ma := 4; mi := 1; pa := 0; candidate := true |};
   {| ma := 4; mi := 1; pa := 0; candidate := false |}; {| ma := 4; mi := 1; pa := 1; candidate := false |};
   {| ma := 5; mi := 0; pa := 0; candidate := false |}; {| ma := 2; mi := 9; pa := 0; candidate := false |}].
Definition ver_parse (s : string) : option ver := find (fun v => String.eqb (ver_show v) s) some_versions.
Definition weight (v : ver) : nat := if candidate v then 0 else 1.
Definition ver_lt (u v : ver) : bool :=
  if Nat.eqb (ma u) (ma v) then
    if Nat.eqb (mi u) (mi v) then
      if Nat.eqb (pa u) (pa v) then Nat.ltb (weight u) (weight v) else Nat.ltb (pa u) (pa v)
    else Nat.ltb (mi u) (mi v)
  else Nat.ltb (ma u) (ma v).
Lemma ver_lt_iff : forall u v, ver_lt u v = true <->
  ma u < ma v \/ ma u = ma v /\ (mi u < mi v \/ mi u = mi v /\ (pa u < pa v \/ pa u = pa v /\ weight u < weight v)).
Proof.
  intros u v. unfold ver_lt.
  destruct (Nat.eqb_spec (ma u) (ma v)), (Nat.eqb_spec (mi u) (mi v)), (Nat.eqb_spec (pa u) (pa v)); rewrite Nat.ltb_lt; lia.
Qed.
Lemma ver_lt_not : forall u v, ver_lt u v = false <->
  ~ (ma u < ma v \/ ma u = ma v /\ (mi u < mi v \/ mi u = mi v /\ (pa u < pa v \/ pa u = pa v /\ weight u < weight v))).
Proof. intros u v. rewrite <- ver_lt_iff. destruct (ver_lt u v); split; congruence. Qed.
Lemma ver_order : version_order ver ver_lt.
Proof.
  split.
  - intros v. apply ver_lt_not. lia.
  - intros a b c. rewrite !ver_lt_iff. lia.
  - intros a b c. rewrite !ver_lt_not. lia.
Qed.

Notation latest := (get_latest ver ver_parse ver_show ma mi pa).
Notation all_checks := (checks ver ver_parse ver_show ma mi pa).
Notation waiting := (is_update_waiting ver ver_parse ver_show ma mi pa).
Notation announce := (update_check ver ver_parse ver_show ma mi pa).

Definition at_time (t : Z) (i : res (list (string * list bool))) : call :=
  {| package := "edulint"; check_time := t; save_time := t; index := i; first_save := Saved; second_save := Saved |}.
Definition releases : res (list (string * list bool)) := Ok [("4.0.9", [false]); ("4.1.0", [false; false]); ("4.1.1", [true]); ("junk", [false])].

(** Without an answer of the index an update is announced, to an unknown version. *)
Lemma unreachable_announced : announce (Some "4.1.0") (at_time 1000 (Raise OSError)) (at_time 1000 (Raise OSError)) fresh_start =
  Some (Ok (Some None)).
Proof. vm_compute. reflexivity. Qed.
(** An older version is announced. *)
Lemma older_announced : announce (Some "5.0.0") (at_time 1000 releases) (at_time 1000 releases) fresh_start = Some (Ok (Some (Some "4.1.0"))).
Proof. vm_compute. reflexivity. Qed.
(** A release candidate is taken for the latest version. *)
Lemma candidate_latest :
  snd (latest (at_time 1000 (Ok [("4.1.0", [false]); ("4.1.0rc1", [false])])) 600 fresh_start) = Some (Ok (Some "4.1.0rc1")) /\
  ver_lt {| ma := 4; mi := 1; pa := 0; candidate := true |} {| ma := 4; mi := 1; pa := 0; candidate := false |} = true.
Proof. split; vm_compute; reflexivity. Qed.
(** Two attempts within an hour. *)
Lemma within_hour : in_order 0 [at_time 1000 releases; at_time 1600 releases] /\
  times "edulint" (asked (all_checks [at_time 1000 releases; at_time 1600 releases] version_ttl fresh_start)) = [1000%Z; 1600%Z].
Proof. split; [cbn; lia|vm_compute; reflexivity]. Qed.
(** A killed check leaves a file that no later check can read. *)
Definition killed : call :=
  {| package := "edulint"; check_time := 1000; save_time := 1000; index := releases; first_save := Killed true; second_save := Saved |}.
Lemma killed_forever : forall cs c ttl,
  snd (latest c ttl (all_checks cs ttl (fst (latest killed 600 fresh_start)))) = Some (Raise JSONDecodeError).
Proof.
  intros cs c ttl. assert (G : file (fst (latest killed 600 fresh_start)) = Garbage) by (vm_compute; reflexivity).
  rewrite damaged_forever by exact G. now rewrite damaged by exact G.
Qed.

(** Explanations. *)
Definition tiny_load (s : string) : res (dict (dict string)) :=
  if String.eqb s "" then Ok []
  else if String.eqb s "?" then Raise ValueError
  else Ok [("C0104", [("why", s)]); ("F401", [("why", "unused")])].
Definition downloaded (s : string) : eworld := {| online := Some s; last_update := Some 1000%Z; fetched := [1000%Z] |}.
Lemma download_not_shown : exists a e, update_thread a 600 {| online := None; last_update := None; fetched := [] |} = downloaded "new" /\
  reply a = Some (200%Z, "new") /\ tiny_load "new" = Ok e /\
  get_explanations tiny_load (Some "old") (downloaded "new") <> Ok e /\
  get_explanations tiny_load (Some "old") (downloaded "new") = tiny_load "old".
Proof.
  exists {| db_works := true; read_time := 1000; write_time := 1000; reply := Some (200%Z, "new"); stored_text := Some "new" |}. eexists.
  split; [vm_compute; reflexivity|]. split; [reflexivity|]. split; [vm_compute; reflexivity|].
  split; [vm_compute; discriminate|vm_compute; reflexivity].
Qed.
