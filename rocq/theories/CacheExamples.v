(** A concrete instance of the cache's library, and histories. *)
From Coq Require Import String Ascii List Bool Arith ZArith Lia Decimal DecimalString DecimalZ DecimalPos.
From Verif Require Import Base TweakSpec TweakProofs CacheModel CacheSpec CacheProofs.
Import ListNotations.
Local Open Scope string_scope.
Local Open Scope list_scope.

(** Addresses are told apart by the first character; metadata are the number and a brace. *)
Definition short_digest (u : string) : string := match u with EmptyString => "0" | String c _ => String c "" end.
Definition simple_dump (t : Z) (u : string) : string := (NilZero.string_of_int (Z.to_int t) ++ "}")%string.
Definition simple_timestamp (s : string) : option Z :=
  match split_first "}" s with Some (a, EmptyString) => option_map Z.of_int (NilZero.int_of_string a) | _ => None end.

Lemma uint_no_brace : forall d, has_char "}" (NilEmpty.string_of_uint d) = false.
Proof. induction d; auto. Qed.
Lemma uint_no_brace_zero : forall d, has_char "}" (NilZero.string_of_uint d) = false.
Proof. intros d. destruct d; auto; apply uint_no_brace. Qed.
Lemma int_no_brace : forall d, has_char "}" (NilZero.string_of_int d) = false.
Proof. intros [d|d]; cbn [NilZero.string_of_int]; [apply uint_no_brace_zero|]. cbn. apply uint_no_brace_zero. Qed.
Lemma simple_read_back : forall t u, simple_timestamp (simple_dump t u) = Some t.
Proof.
  intros t u. unfold simple_timestamp, simple_dump. rewrite split_first_app by apply int_no_brace.
  rewrite NilZero.isi; [cbn [option_map]; now rewrite DecimalZ.of_to| |].
  - destruct t as [|p|p]; try discriminate. intros E. apply (DecimalPos.Unsigned.to_uint_nonnil p). cbn in E. congruence.
  - destruct t as [|p|p]; try discriminate. intros E. apply (DecimalPos.Unsigned.to_uint_nonnil p). cbn in E. congruence.
Qed.
Lemma cut_no_brace : forall a p e, has_char "}" a = false -> (a ++ "}")%string = (p ++ e)%string -> e <> ""%string -> has_char "}" p = false.
Proof.
  induction a as [|c a IH]; intros p e H E N.
  - destruct p as [|d p]; auto. cbn [append] in E. injection E as -> E. destruct p; [|discriminate]. cbn [append] in E. congruence.
  - destruct p as [|d p]; auto. cbn [append] in E. injection E as -> E. cbn [has_char] in *.
    apply orb_false_iff in H as [H1 H2]. rewrite H1. eapply IH; eauto.
Qed.
Lemma simple_cut : forall t u p, beginning p (simple_dump t u) -> p <> simple_dump t u -> simple_timestamp p = None.
Proof.
  intros t u p [e E] N. unfold simple_timestamp. rewrite split_first_none; auto.
  eapply cut_no_brace; [apply (int_no_brace (Z.to_int t))|exact E|]. intros ->. apply N. now rewrite E, app_nil_s.
Qed.
Definition two : list string := ["http://a"; "x"].
Lemma simple_library : library short_digest simple_dump simple_timestamp two.
Proof.
  split.
  - intros u v [<-|[<-|[]]] [<-|[<-|[]]] H; auto; discriminate.
  - intros [|] [|]; reflexivity.
  - apply simple_read_back.
  - apply simple_cut.
Qed.
Definition all_decode (s : string) : bool := true.

Definition ask (u : string) (t : Z) (a : response) (f : fate) : request :=
  {| url := u; before := t; readable1 := true; answer := a; stamp := t; writing := f; after := t; readable2 := true |}.
Notation run := (history short_digest simple_dump simple_timestamp all_decode).
Notation get := (http_get short_digest simple_dump simple_timestamp all_decode).

Definition first : request := ask "http://a" 1000 (Answer 200 "abc") Written.
Definition cut : request := ask "http://a" 1400 (Answer 200 "defgh") (Crashed 3).
Definition offline (t : Z) : request := ask "http://a" t NoAnswer Written.

(** A crash in the middle of an update: later a cut text is served. *)
Lemma torn : exists w, get (offline 1800) (run [first; cut] start) = (w, Returned "de") /\
  forall q s, In q (contacts w) -> success "http://a" s q -> s = "abc" \/ s = "defgh".
Proof.
  eexists. split; [vm_compute; reflexivity|]. intros q s I [U A]. cbn in I.
  destruct I as [<-|[<-|[<-|[]]]]; cbn in A; inversion A; auto.
Qed.
(** Also when writing fails and the error is only logged. *)
Lemma torn_failed : snd (get (offline 1800) (run [first; ask "http://a" 1400 (Answer 200 "defgh") (Failed 3)] start)) = Returned "de".
Proof. vm_compute. reflexivity. Qed.

Lemma nine_days : exists w, get (offline (1000 + days 9)) (run [first] start) = (w, Raised FileNotFound) /\ (days 9 < days 500)%Z.
Proof. eexists. split; [vm_compute; reflexivity|reflexivity]. Qed.

Lemma empty_lost : exists w, get (offline 1001) (run [ask "http://a" 1000 (Answer 200 "") Written] start) = (w, Raised FileNotFound).
Proof. eexists. vm_compute. reflexivity. Qed.

Lemma asked_again : contacts (run [ask "http://a" 1000 (Answer 404 "") Written; ask "http://a" 1001 (Answer 404 "") Written] start) =
  [ask "http://a" 1000 (Answer 404 "") Written; ask "http://a" 1001 (Answer 404 "") Written].
Proof. vm_compute. reflexivity. Qed.

Definition cr : string := String "013" "".
Lemma other_text : exists w w', get (ask "http://a" 1000 (Answer 200 ("a = 1" ++ cr)) Written) start = (w, Returned ("a = 1" ++ cr)%string) /\
  get (ask "http://a" 1001 NoAnswer Written) w = (w', Returned ("a = 1" ++ String "010" "")%string).
Proof. do 2 eexists. split; vm_compute; reflexivity. Qed.

Lemma first_last : last_success (contacts (run [first] start)) "http://a" "abc" first.
Proof. exists [], []. split; [reflexivity|]. split; [split; reflexivity|]. intros q s []. Qed.
