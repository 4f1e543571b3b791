(** Comments that turn off checks. *)
From Coq Require Import String Ascii List Bool Arith.
From Verif Require Import Base ConfigModel.
Import ListNotations.
Local Open Scope string_scope.
Local Open Scope list_scope.

(** All characters of a text. *)
Fixpoint every (P : ascii -> Prop) (s : string) : Prop := match s with EmptyString => True | String c r => P c /\ every P r end.
(** White space. *)
Definition white (c : ascii) : Prop := In (nat_of_ascii c) [9; 10; 11; 12; 13; 28; 29; 30; 31; 32].
(** No end of line. *)
Definition inline (c : ascii) : Prop := c <> "010"%char.
(** The ways to write a comment that turns off (or on) checks of a linter, letters being small or capital. *)
Inductive spelled : Linter -> string -> Prop :=
| spelled_noqa t : lower t = "noqa" -> spelled FLAKE8_L t
| spelled_flake8 a sp b : lower a = "flake8:" -> every (fun c => c = " "%char) sp -> lower b = "noqa" -> spelled FLAKE8_L (a ++ sp ++ b)
| spelled_pylint a sp b : lower a = "pylint:" -> every white sp -> lower b = "disable" \/ lower b = "enable" -> spelled PYLINT_L (a ++ sp ++ b).
(** The line has such a comment, with the hash at this column. *)
Definition comment (l : Linter) (line : string) (column : nat) (text : string) : Prop :=
  exists pre sp rest, line = (pre ++ "#" ++ sp ++ text ++ rest)%string /\ column = String.length pre /\ every inline pre /\ every white sp /\ spelled l text.
(** The line has the words of an import from ib111. *)
Definition names_ib111 (line : string) : Prop :=
  exists pre a x s b y t c rest, line = (pre ++ a ++ String x (s ++ b ++ String y (t ++ c ++ rest)))%string /\ every inline pre /\
    lower a = "from" /\ white x /\ every white s /\ lower b = "ib111" /\ white y /\ every white t /\ lower c = "import".
(** The comments of a linter are to be reported. *)
Definition asked (ignore : list string) (l : Linter) : Prop := In "all" ignore \/ exists s, In s ignore /\ lower s = linter_name l.
