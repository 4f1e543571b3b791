(** What the version check and the explanations promise. *)
From Coq Require Import String Ascii List Bool Arith ZArith.
From Verif Require Import Base VersionModel.
Import ListNotations.
Local Open Scope string_scope.
Local Open Scope list_scope.

(** The times of the attempts for a package. *)
Definition times (p : string) (l : list (string * Z)) : list Z :=
  map snd (filter (fun pt => String.eqb (fst pt) p) l).
(** Any two attempts are at least [ttl] apart. *)
Definition spaced (ttl : Z) (l : list Z) : Prop := ForallOrdPairs (fun a b => (a + ttl <= b)%Z) l.
(** The clock does not go back, and is past the beginning of the epoch. *)
Fixpoint in_order (now : Z) (cs : list call) : Prop :=
  match cs with
  | [] => True
  | c :: r => (now <= check_time c)%Z /\ (0 < check_time c)%Z /\ (check_time c <= save_time c)%Z /\ in_order (save_time c) r
  end.
Fixpoint in_order_attempts (now : Z) (l : list attempt) : Prop :=
  match l with
  | [] => True
  | a :: r => (now <= read_time a)%Z /\ (read_time a <= write_time a)%Z /\ in_order_attempts (write_time a) r
  end.

(** The word "all" in small or capital letters. *)
Definition spells_all (i : string) : Prop :=
  exists a l m, i = String a (String l (String m "")) /\ (a = "a" \/ a = "A")%char /\ (l = "l" \/ l = "L")%char /\ (m = "l" \/ m = "L")%char.

Section Spec.
  Variable V : Type.
  Variable parse : string -> option V.
  Variables major minor micro : V -> nat.
  Variable lt : V -> V -> bool.

  (** [v] is a release with builds none of which is yanked; old versions of pylint do not count. *)
  Definition offered (p : string) (l : list (string * list bool)) (v : V) : Prop :=
    (exists id builds, In (id, builds) l /\ parse id = Some v /\ builds <> [] /\ ~ In true builds) /\
    (p = "pylint" -> 3 <= major v).
  (** (major, minor, micro) of [u] is less than that of [v]. *)
  Definition older (u v : V) : Prop :=
    major u < major v \/
    (major u = major v /\ (minor u < minor v \/ (minor u = minor v /\ micro u < micro v))).
  Definition same_minor (u v : V) : Prop := major u = major v /\ minor u = minor v.
  Definition before_minor (u v : V) : Prop := major u < major v \/ (major u = major v /\ minor u < minor v).

  (** The order of versions. *)
  Record version_order : Prop := {
    lt_irreflexive : forall v, lt v v = false;
    lt_transitive : forall a b c, lt a b = true -> lt b c = true -> lt a c = true;
    not_lt_transitive : forall a b c, lt a b = false -> lt b c = false -> lt a c = false
  }.
End Spec.
