(** Which linter messages are left out or reworded, stated on the linters' own message templates. *)
From Coq Require Import String Ascii List Bool Arith ZArith.
From Verif Require Import Base ConfigModel LintModel LintSpec.
Import ListNotations.
Local Open Scope string_scope.

(** What a linter reported. [Plain] is any message edulint has no tweak for. *)
Inductive finding :=
| DisallowedName (name : string)
| UnusedImport (name : string)
| RepeatedOperation (use repeated expression : string)
| SuperfluousParens (keyword : string)
| RedefinedBuiltin (name : string)
| BoolComparison (value same : bool)
| Plain.

Definition lacks (c : ascii) (s : string) : Prop := ~ exists a b, s = a ++ String c b.
Definition bool_name (b : bool) : string := if b then "True" else "False".
Definition quote : string := String "034" "".

(** The messages: pylint C0104, C0325, W0622; pyflakes F401; edulint's own R6607
    (edulint/linting/checkers/local_defects.py:61-65); pycodestyle E712. *)
Definition template (f : finding) : option (Linter * string * string) :=
  match f with
  | DisallowedName n => Some (PYLINT_L, "C0104", "Disallowed name " ++ quote ++ n ++ quote)
  | UnusedImport n => Some (FLAKE8_L, "F401", "'" ++ n ++ "' imported but unused")
  | RepeatedOperation u r e => Some (PYLINT_L, "R6607", "Use " ++ u ++ " instead of repeated " ++ r ++ " in " ++ e ++ ".")
  | SuperfluousParens k => Some (PYLINT_L, "C0325", "Unnecessary parens after '" ++ k ++ "' keyword")
  | RedefinedBuiltin n => Some (PYLINT_L, "W0622", "Redefining built-in '" ++ n ++ "'")
  | BoolComparison v same =>
      Some (FLAKE8_L, "E712",
            "comparison to " ++ bool_name v ++ " should be 'if cond is " ++ (if same then "" else "not ") ++ bool_name v ++
            ":' or 'if " ++ (if Bool.eqb v same then "" else "not ") ++ "cond:'")
  | Plain => None
  end.
(** The linters quote identifiers and keywords, which have no line breaks and no quotes. *)
Definition quotable (s : string) : Prop := lacks "010" s /\ lacks "'" s /\ lacks "034" s.
Definition proper (f : finding) : Prop :=
  match f with
  | DisallowedName n => lacks "010" n
  | UnusedImport n => lacks "010" n
  | RepeatedOperation u r _ => lacks " " u /\ lacks " " r
  | SuperfluousParens k => quotable k
  | RedefinedBuiltin n => quotable n
  | _ => True
  end.
Definition adjusted : list (Linter * string) :=
  [(PYLINT_L, "C0104"); (FLAKE8_L, "F401"); (PYLINT_L, "R6607"); (PYLINT_L, "C0325"); (PYLINT_L, "W0622"); (FLAKE8_L, "E712")].
Definition reports (p : problem) (f : finding) : Prop :=
  match template f with
  | Some (l, c, t) => source p = l /\ code p = c /\ text p = t /\ proper f
  | None => ~ In (source p, code p) adjusted
  end.

(** At most one star before the first full stop. *)
Definition few_stars (e : string) : Prop :=
  exists a b, e ++ "." = a ++ "." ++ b /\ lacks "." a /\ ~ exists x y z, a = x ++ "*" ++ y ++ "*" ++ z.

(** The finding is not reported under the configuration. *)
Definition dropped (c : iconfig) (f : finding) : Prop :=
  match f with
  | DisallowedName n =>
      exists ch names, n = String ch "" /\ iget c ALLOWED_ONECHAR_NAMES = Ok (VOptStr (Some names)) /\ ~ lacks ch names
  | UnusedImport n => exists r, n = "ib111" ++ r
  | RepeatedOperation _ _ e => iget c SET_GROUPS = Ok (VList nil) /\ few_stars e
  | SuperfluousParens k => lower k = "not"
  | RedefinedBuiltin n => exists l, iget c DISALLOWED_BUILTIN_NAMES = Ok (VList l) /\ l <> nil /\ ~ In n l
  | BoolComparison _ _ => False
  | Plain => False
  end.
(** The text of a reported finding, given the linter's text. *)
Definition final_text (f : finding) (t : string) : string :=
  match f with
  | DisallowedName (String ch EmptyString) =>
      "Disallowed single-character variable name " ++ quote ++ String ch quote ++ ", choose a more descriptive name"
  | BoolComparison v same =>
      "comparison to " ++ bool_name v ++ " should be 'if " ++ (if Bool.eqb v same then "" else "not ") ++ "cond:'"
  | _ => t
  end.

(** [out] is what remains of [ps], which report [fs]. *)
Inductive tweaked (c : iconfig) : list problem -> list finding -> list problem -> Prop :=
| tweaked_nil : tweaked c nil nil nil
| tweaked_drop : forall p f ps fs out, dropped c f -> tweaked c ps fs out -> tweaked c (p :: ps) (f :: fs) out
| tweaked_keep : forall p f ps fs out q, ~ dropped c f -> same_but_text p q -> text q = final_text f (text p) ->
    tweaked c ps fs out -> tweaked c (p :: ps) (f :: fs) (q :: out).

(** The configuration holds every option once, in order, with values of the right type. *)
Definition complete (c : iconfig) : Prop := map fst (ivals c) = all_options.
Definition typed (c : iconfig) : Prop :=
  (exists v, iget c ALLOWED_ONECHAR_NAMES = Ok (VOptStr v)) /\ (exists l, iget c SET_GROUPS = Ok (VList l)) /\
  (exists l, iget c DISALLOWED_BUILTIN_NAMES = Ok (VList l)).
