(** The properties of the cache of remote configurations (C27-C29, C71-C73), with examples. *)
From Coq Require Import String Ascii List Bool Arith ZArith.
From Verif Require Import Base CacheModel CacheSpec CacheProofs CacheExamples.
Import ListNotations.
Local Open Scope string_scope.
Local Open Scope list_scope.

(** C27: whatever happened before, if the last successful exchange about the address was written to
    the cache, a text obtained is the answer just received, or the text of that exchange less than
    five minutes old, or (without a successful answer) not older than the offline limit. Without
    such an exchange the text is the answer just received. *)
Theorem C27_fresh : forall digest dump timestamp decodes used, library digest dump timestamp used ->
  forall rs r w' c, (forall x, In x (r :: rs) -> In (url x) used) ->
  http_get digest dump timestamp decodes r (history digest dump timestamp decodes rs start) = (w', Returned c) ->
  (forall s q, last_success (contacts (history digest dump timestamp decodes rs start)) (url r) s q -> writing q = Written ->
    (asks (history digest dump timestamp decodes rs start) w' r /\ answer r = Answer 200 c) \/
    (w' = history digest dump timestamp decodes rs start /\ same_lines s c /\ (before r < stamp q + minutes 5)%Z) \/
    (asks (history digest dump timestamp decodes rs start) w' r /\ (forall b, answer r <> Answer 200 b) /\ same_lines s c /\
       (after r < stamp q + max_cache_time_when_offline)%Z)) /\
  (never (contacts (history digest dump timestamp decodes rs start)) (url r) ->
    asks (history digest dump timestamp decodes rs start) w' r /\ answer r = Answer 200 c).
Proof.
  exact (fun dg du ts de us lib rs r w' c U H =>
    conj (fun s q => fresh dg du ts de us lib rs r w' c s q U H) (unknown dg du ts de us lib rs r w' c U H)).
Qed.
Print Assumptions C27_fresh.

Example C27_nonvacuous : library short_digest simple_dump simple_timestamp two /\
  last_success (contacts (run [first] start)) "http://a" "abc" first /\
  snd (get (offline 1299) (run [first] start)) = Returned "abc" /\
  snd (get (ask "http://a" 1300 (Answer 200 "new") Written) (run [first] start)) = Returned "new" /\
  snd (get (offline 1300) (run [first] start)) = Returned "abc" /\
  snd (get (ask "x" 1001 (Answer 200 "other") Written) (run [first] start)) = Returned "other".
Proof. exact (conj simple_library (conj first_last (conj eq_refl (conj eq_refl (conj eq_refl eq_refl))))). Qed.

(** C28 fails: a crash, or a failed write, in the middle of an update leaves a beginning of the new
    text with the old metadata, and it is served when the server does not answer. *)
Theorem C28_torn_refuted : exists w, get (offline 1800) (run [first; cut] start) = (w, Returned "de") /\
  forall q s, In q (contacts w) -> success "http://a" s q -> s = "abc" \/ s = "defgh".
Proof. exact torn. Qed.
Print Assumptions C28_torn_refuted.

Theorem C28_failed_write_refuted :
  snd (get (offline 1800) (run [first; ask "http://a" 1400 (Answer 200 "defgh") (Failed 3)] start)) = Returned "de".
Proof. exact torn_failed. Qed.
Print Assumptions C28_failed_write_refuted.

(** Nothing else than a beginning of a text sent for that address is ever served. *)
Theorem C28_beginnings_partial : forall digest dump timestamp decodes used, library digest dump timestamp used ->
  forall rs r w' c, (forall x, In x (r :: rs) -> In (url x) used) ->
  http_get digest dump timestamp decodes r (history digest dump timestamp decodes rs start) = (w', Returned c) ->
  (asks (history digest dump timestamp decodes rs start) w' r /\ answer r = Answer 200 c) \/
  exists q s p, In q (contacts (history digest dump timestamp decodes rs start)) /\ success (url r) s q /\ beginning p s /\ same_lines p c.
Proof. exact only_beginnings. Qed.
Print Assumptions C28_beginnings_partial.

(** C29 fails: after nine days the text is gone; the limit is 500*24*60 seconds, 8 days and 8 hours. *)
Theorem C29_limit_refuted : exists w, get (offline (1000 + days 9)) (run [first] start) = (w, Raised FileNotFound) /\ (days 9 < days 500)%Z.
Proof. exact nine_days. Qed.
Print Assumptions C29_limit_refuted.

Theorem C29_expired_refuted : forall digest dump timestamp decodes used, library digest dump timestamp used ->
  forall rs r s q, (forall x, In x (r :: rs) -> In (url x) used) ->
  last_success (contacts (history digest dump timestamp decodes rs start)) (url r) s q -> writing q = Written ->
  answer r = NoAnswer -> (stamp q + max_cache_time_when_offline <= after r)%Z -> (stamp q + minutes 5 <= before r)%Z ->
  exists w', http_get digest dump timestamp decodes r (history digest dump timestamp decodes rs start) = (w', Raised FileNotFound).
Proof. exact expired. Qed.
Print Assumptions C29_expired_refuted.

Example C29_seconds : max_cache_time_when_offline = (days 8 + 8 * 3600)%Z.
Proof. reflexivity. Qed.

(** C71 fails for an empty text, which counts as missing; it holds for other texts that can be
    decoded. *)
Theorem C71_empty_refuted : exists w, get (offline 1001) (run [ask "http://a" 1000 (Answer 200 "") Written] start) = (w, Raised FileNotFound).
Proof. exact empty_lost. Qed.
Print Assumptions C71_empty_refuted.

Theorem C71_available_partial : forall digest dump timestamp decodes used, library digest dump timestamp used ->
  forall rs r s q, (forall x, In x (r :: rs) -> In (url x) used) ->
  last_success (contacts (history digest dump timestamp decodes rs start)) (url r) s q -> writing q = Written -> s <> "" ->
  decodes s = true -> readable2 r = true -> (after r < stamp q + max_cache_time_when_offline)%Z ->
  (forall e, answer r <> Broken e) -> (forall k, writing r <> Crashed k) ->
  exists w' c, http_get digest dump timestamp decodes r (history digest dump timestamp decodes rs start) = (w', Returned c).
Proof. exact available. Qed.
Print Assumptions C71_available_partial.

(** C72 fails if the server does not answer with a text; otherwise it is left alone for five minutes. *)
Theorem C72_asked_again_refuted :
  contacts (run [ask "http://a" 1000 (Answer 404 "") Written; ask "http://a" 1001 (Answer 404 "") Written] start) =
  [ask "http://a" 1000 (Answer 404 "") Written; ask "http://a" 1001 (Answer 404 "") Written].
Proof. exact asked_again. Qed.
Print Assumptions C72_asked_again_refuted.

Theorem C72_not_asked_partial : forall digest dump timestamp decodes used, library digest dump timestamp used ->
  forall rs r s q, (forall x, In x (r :: rs) -> In (url x) used) ->
  last_success (contacts (history digest dump timestamp decodes rs start)) (url r) s q -> writing q = Written -> s <> "" ->
  decodes s = true -> readable1 r = true -> (before r < stamp q + minutes 5)%Z ->
  exists c, http_get digest dump timestamp decodes r (history digest dump timestamp decodes rs start) =
    (history digest dump timestamp decodes rs start, Returned c) /\ same_lines s c.
Proof. exact not_asked. Qed.
Print Assumptions C72_not_asked_partial.

(** C73 fails: a carriage return comes back as a line feed. Texts without it come back unchanged. *)
Theorem C73_line_ends_refuted : exists w w',
  get (ask "http://a" 1000 (Answer 200 ("a = 1" ++ cr)) Written) start = (w, Returned ("a = 1" ++ cr)%string) /\
  get (ask "http://a" 1001 NoAnswer Written) w = (w', Returned ("a = 1" ++ String "010" "")%string).
Proof. exact other_text. Qed.
Print Assumptions C73_line_ends_refuted.

Theorem C73_unchanged_partial : forall digest dump timestamp decodes used, library digest dump timestamp used ->
  forall rs r s q, (forall x, In x (r :: rs) -> In (url x) used) ->
  last_success (contacts (history digest dump timestamp decodes rs start)) (url r) s q -> writing q = Written -> s <> "" ->
  decodes s = true -> readable1 r = true -> (before r < stamp q + minutes 5)%Z -> has_char "013" s = false ->
  http_get digest dump timestamp decodes r (history digest dump timestamp decodes rs start) =
    (history digest dump timestamp decodes rs start, Returned s).
Proof. exact verbatim. Qed.
Print Assumptions C73_unchanged_partial.
