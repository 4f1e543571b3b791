(** What a translated message should be, stated without patterns. *)
From Coq Require Import String Ascii List Bool Arith.
From Verif Require Import Base ConfigFileModel LintModel TweakSpec TranslateModel.
Import ListNotations.
Local Open Scope string_scope.
Local Open Scope list_scope.

(** Python's [message % snippets], for %r, %s, %d and %%; [snippets] are the inserted texts. *)
Inductive renders : string -> list string -> string -> Prop :=
| renders_nil : renders "" [] ""
| renders_hole : forall c r s ss t, In c ["r"; "s"; "d"]%char -> renders r ss t ->
    renders (String "%" (String c r)) (s :: ss) (s ++ t)
| renders_percent : forall r ss t, renders r ss t -> renders ("%%" ++ r) ss (String "%" t)
| renders_char : forall c r ss t, c <> "%"%char -> renders r ss t -> renders (String c r) ss (String c t).

(** The message has no doubled percent sign. *)
Definition no_doubled (m : string) : Prop := ~ exists a b, m = (a ++ "%%" ++ b)%string.

(** [text] is [message] with [snippets], up to the case of the message's own letters. *)
Definition same_letter (c d : ascii) : Prop := lower_ascii c = lower_ascii d.
Inductive splits : string -> list string -> string -> Prop :=
| splits_nil : splits "" [] ""
| splits_hole : forall c r s ss t, In (lower_ascii c) ["r"; "s"; "d"]%char -> lacks "010" s -> splits r ss t ->
    splits (String "%" (String c r)) (s :: ss) (s ++ t)
| splits_char : forall c d r ss t,
    (c = "%"%char -> ~ exists x r', r = String x r' /\ In (lower_ascii x) ["r"; "s"; "d"]%char) ->
    same_letter c d -> splits r ss t -> splits (String c r) ss (String d t).

(** ** Templates *)

Inductive part := Say (s : string) | Next | At (i : nat).
Fixpoint braces (s : string) : string :=
  match s with
  | EmptyString => EmptyString
  | String c r => if Ascii.eqb c "{" || Ascii.eqb c "}" then String c (String c (braces r)) else String c (braces r)
  end.
Definition spell_part (p : part) : string :=
  match p with Say s => braces s | Next => "{}" | At i => ("{" ++ dec i ++ "}")%string end.
Definition spell (ps : list part) : string := fold_right (fun p s => (spell_part p ++ s)%string) "" ps.
(** Placeholders are either all without or all with a number. *)
Definition consistent (ps : list part) : Prop := ~ In Next ps \/ forall i, ~ In (At i) ps.
(** The template's text with [words] in place of the placeholders, [n] being the next one. *)
Inductive filled (words : list string) : nat -> list part -> string -> Prop :=
| filled_nil : forall n, filled words n [] ""
| filled_say : forall n s ps t, filled words n ps t -> filled words n (Say s :: ps) (s ++ t)
| filled_next : forall n w ps t, nth_error words n = Some w -> filled words (S n) ps t ->
    filled words n (Next :: ps) (w ++ t)
| filled_at : forall n i w ps t, nth_error words i = Some w -> filled words n ps t ->
    filled words n (At i :: ps) (w ++ t).

(** ** Snippets *)

(** [v] is the translation of the snippet [w], the [i]-th one counted from 1. *)
Definition replaced (d : list (string * toml)) (i : nat) (w v : string) : Prop :=
  (exists m, dget (dec i) d = Some (TTable m) /\ dget w m = Some (TStr v)) \/
  (v = w /\ (dget (dec i) d = None \/ exists m, dget (dec i) d = Some (TTable m) /\ dget w m = None)).
Inductive replaced_all (d : list (string * toml)) : nat -> list string -> list string -> Prop :=
| replaced_nil : forall i, replaced_all d i [] []
| replaced_cons : forall i w v ws vs, replaced d i w v -> replaced_all d (S i) ws vs ->
    replaced_all d i (w :: ws) (v :: vs).

(** A table of snippet translations as documented: numbers to tables of texts. *)
Definition well_formed (d : list (string * toml)) : Prop := forall i v, dget (dec i) d = Some v ->
  exists m, v = TTable m /\ forall w x, dget w m = Some x -> exists s, x = TStr s.
(** The placeholders ask for at most [k] snippets. *)
Fixpoint nexts (ps : list part) : nat :=
  match ps with [] => 0 | Next :: r => S (nexts r) | _ :: r => nexts r end.
Definition fits (k : nat) (ps : list part) : Prop := nexts ps <= k /\ forall i, In (At i) ps -> i < k.
