(** What the cache of remote configurations promises, in terms of the exchanges with the server. *)
From Coq Require Import String Ascii List Bool Arith ZArith.
From Verif Require Import Base CacheModel.
Import ListNotations.
Local Open Scope string_scope.
Local Open Scope list_scope.

(** [q] is an exchange about [u] in which the server answered with [s]. *)
Definition success (u s : string) (q : request) : Prop := url q = u /\ answer q = Answer 200 s.
(** [q] is the last such exchange. *)
Definition last_success (cs : list request) (u s : string) (q : request) : Prop :=
  exists a b, cs = a ++ q :: b /\ success u s q /\ forall q' s', In q' b -> ~ success u s' q'.
Definition never (cs : list request) (u : string) : Prop := forall q s, In q cs -> ~ success u s q.

(** Texts differing only in how lines end: CR LF, CR or LF. *)
Inductive same_lines : string -> string -> Prop :=
| same_nil : same_lines "" ""
| same_crlf : forall s t, same_lines s t -> same_lines (String "013" (String "010" s)) (String "010" t)
| same_cr : forall s t, (forall r, s <> String "010" r) -> same_lines s t -> same_lines (String "013" s) (String "010" t)
| same_char : forall c s t, c <> "013"%char -> same_lines s t -> same_lines (String c s) (String c t).

Definition beginning (p s : string) : Prop := exists e, s = (p ++ e)%string.
Definition minutes (n : Z) : Z := n * 60.
Definition days (n : Z) : Z := n * 24 * 3600.

(** Whether the call asked the server. *)
Definition asks (w w' : world) (r : request) : Prop := contacts w' = contacts w ++ [r].

(** The assumptions about the library: file names differ for the addresses in use and are of one
    length; metadata can be read back, and not when cut short. *)
Record library (digest : string -> string) (dump : Z -> string -> string) (timestamp : string -> option Z)
  (used : list string) : Prop := {
  digest_injective : forall u v, In u used -> In v used -> digest u = digest v -> u = v;
  digest_length : forall u v, String.length (digest u) = String.length (digest v);
  read_back : forall t u, timestamp (dump t u) = Some t;
  cut_short : forall t u p, beginning p (dump t u) -> p <> dump t u -> timestamp p = None
}.
