(** Model of edulint/linting/problem.py, linting.py, overrides.py, tweakers.py and of the checking
    part of edulint/edulint.py. Definitions only. *)
From Coq Require Import String Ascii List Bool Arith ZArith.
From Verif Require Import Base ConfigModel PathModel ConfigFileModel RegexModel.
Import ListNotations.
Local Open Scope string_scope.
Local Open Scope list_scope.

(** edulint/linting/problem.py:10-38, [Problem]. *)
Record problem := {
  source : Linter; enabled_by : option string; path : string; line : Z; column : Z;
  code : string; text : string; end_line : option Z; end_column : option Z; symbol : option string }.

(** [problem.text = ...], edulint/linting/linting.py:248,304. *)
Definition with_text (p : problem) (t : string) : problem :=
  {| source := source p; enabled_by := enabled_by p; path := path p; line := line p; column := column p;
     code := code p; text := t; end_line := end_line p; end_column := end_column p; symbol := symbol p |}.

(** ** Overrides *)

(** edulint/linting/overrides.py:7-37, [OVERRIDERS]; a Python dict from codes to sets of codes. *)
Definition OVERRIDERS : dict (list string) :=
  [("C0104", ["R6307"; "R6609"; "F841"; "W0613"]);
   ("C0103", ["R6307"; "R6609"; "F841"; "W0613"]);
   ("E225", ["R6609"]);
   ("R1705", ["R1703"; "R6201"]);
   ("R6610", ["R6608"]);
   ("W0107", ["W0101"]);
   ("C0201", ["C0206"]);
   ("R6216", ["R6211"; "R6212"; "R6214"; "R6215"]);
   ("R6213", ["R6216"]);
   ("R6221", ["R6222"]);
   ("R6218", ["R6222"])].

(** edulint/linting/linting.py:222-227: the codes reported for a path and line. *)
Definition codes_on_line (problems : list problem) (pa : string) (li : Z) : list string :=
  map code (filter (fun q => String.eqb (path q) pa && Z.eqb (line q) li) problems).

(** edulint/linting/linting.py:221-235, [apply_overrides]. *)
Definition apply_overrides (problems : list problem) (overriders : dict (list string)) : list problem :=
  filter (fun p =>
            let o := match dget (code p) overriders with Some o => o | None => [] end in
            negb (existsb (fun c => str_in c (codes_on_line problems (path p) (line p))) o)) problems.

(** ** Tweakers *)

(** edulint/linting/tweakers.py:10-30, [Tweaker]; [pattern] lists alternatives, tried in order. *)
Record tweaker := {
  used_options : list Opt;
  pattern : list (list item);
  keep : (string -> res (list string)) -> problem -> list parg -> res bool;
  reword : option ((string -> res (list string)) -> problem -> res string) }.

(** edulint/linting/tweakers.py:18-21, [Tweaker.match]: the groups, or a failed assertion. *)
Fixpoint first_match (alts : list (list item)) (s : string) : option (list string) :=
  match alts with
  | [] => None
  | p :: r => match rmatch false p s with Some (g, _) => Some g | None => first_match r s end
  end.
(** [match], edulint/linting/tweakers.py:18-21. *)
Definition tw_match (alts : list (list item)) (s : string) : res (list string) :=
  match first_match alts s with Some g => Ok g | None => Raise AssertionError end.

(** [match.group(n)], edulint/linting/tweakers.py:46, 51. *)
Definition group (n : nat) (g : list string) : res string :=
  match nth_error g (n - 1) with Some s => Ok s | None => Raise IndexError end.

(** [s.strip(chars)], edulint/linting/tweakers.py:71, 95. *)
Fixpoint lstrip (chars : list ascii) (s : string) : string :=
  match s with
  | String c r => if existsb (Ascii.eqb c) chars then lstrip chars r else s
  | EmptyString => s
  end.
(** Reversing a text, for [s.strip], edulint/linting/tweakers.py:71, 95. *)
Fixpoint rev_str (s acc : string) : string :=
  match s with EmptyString => acc | String c r => rev_str r (String c acc) end.
(** [s.strip(chars)], edulint/linting/tweakers.py:71, 95. *)
Definition strip (chars : list ascii) (s : string) : string :=
  rev_str (lstrip chars (rev_str (lstrip chars s) "")) "".
(** The quotes stripped, edulint/linting/tweakers.py:71, 95. *)
Definition quotes : list ascii := ["'"%char; "034"%char].

(** [s.count(c)] for one character, edulint/linting/tweakers.py:66, 90. *)
Fixpoint count_char (c : ascii) (s : string) : nat :=
  match s with EmptyString => 0 | String x r => (if Ascii.eqb x c then 1 else 0) + count_char c r end.

(** edulint/linting/tweakers.py:33-47, [disallowed_name_keep]. *)
Definition disallowed_name_keep (m : string -> res (list string)) (p : problem) (args : list parg) : res bool :=
  do allowed <- match args with
                | [(ALLOWED_ONECHAR_NAMES, VOptStr None)] => Ok ""
                | [(ALLOWED_ONECHAR_NAMES, VOptStr (Some s))] => Ok s
                | [(ALLOWED_ONECHAR_NAMES, _)] => Raise AssertionError
                | _ => Ok ""
                end;
  do g <- m (text p);
  do name <- group 1 g;
  Ok (match name with
      | String c EmptyString => negb (has_char c allowed)
      | _ => true
      end).

(** edulint/linting/tweakers.py:50-54, [disallowed_name_reword]. *)
Definition dq : string := String "034" "".
(** [disallowed_name_reword], edulint/linting/tweakers.py:50-54. *)
Definition disallowed_name_reword (m : string -> res (list string)) (p : problem) : res string :=
  do g <- m (text p);
  do name <- group 1 g;
  Ok (if Nat.eqb (String.length name) 1
      then ("Disallowed single-character variable name " ++ dq ++ name ++ dq ++
            ", choose a more descriptive name")%string
      else text p).

(** edulint/linting/tweakers.py:77-79, [unused_import_keep]. *)
Definition unused_import_keep (m : string -> res (list string)) (p : problem) (args : list parg) : res bool :=
  do g <- m (text p);
  do name <- group 1 g;
  Ok (negb (String.prefix "ib111" name)).

(** edulint/linting/tweakers.py:82-90, [no_repeated_op_keep]. *)
Definition no_repeated_op_keep (m : string -> res (list string)) (p : problem) (args : list parg) : res bool :=
  match args with
  | [(_, VList l)] =>
      if str_in "enhancement" l then Ok true
      else
        do g <- m (text p);
        do expr <- group 1 g;
        Ok (negb (match l with [] => true | _ => false end) || Nat.ltb 1 (count_char "*" expr))
  | [(_, _)] => Raise TypeError
  | _ => Raise AssertionError
  end.

(** edulint/linting/tweakers.py:93-97, [superfluous_parens_keep]. *)
Definition superfluous_parens_keep (m : string -> res (list string)) (p : problem) (args : list parg) : res bool :=
  do g <- m (text p);
  do keyword <- group 1 g;
  Ok (negb (String.eqb (lower (strip quotes keyword)) "not")).

(** edulint/linting/tweakers.py:100-107, [redefined_builtin_keep]. *)
Definition redefined_builtin_keep (m : string -> res (list string)) (p : problem) (args : list parg) : res bool :=
  do g <- m (text p);
  do name <- group 1 g;
  match args with
  | [(DISALLOWED_BUILTIN_NAMES, VList l)] =>
      Ok (match l with [] => true | _ => false end || str_in (strip quotes name) l)
  | [(DISALLOWED_BUILTIN_NAMES, _)] => Raise TypeError
  | _ => Raise AssertionError
  end.

(** edulint/linting/tweakers.py:110-112, [singleton_bool_comparison_reword]. *)
Definition singleton_bool_comparison_reword (m : string -> res (list string)) (p : problem) : res string :=
  do g <- m (text p);
  Ok (List.fold_right append "" g).

(** edulint/linting/tweakers.py:15, the default of [keep]. *)
Definition always_keep (m : string -> res (list string)) (p : problem) (args : list parg) : res bool := Ok true.

(** edulint/linting/tweakers.py:117-155, [TWEAKERS]. *)
Definition tweaker_of (s : Linter) (c : string) : option tweaker :=
  match s with
  | PYLINT_L =>
      if String.eqb c "C0104" then
        Some {| used_options := [ALLOWED_ONECHAR_NAMES];
                pattern := [[Lit ("Disallowed name " ++ dq); CapStar any_char; Lit dq]];
                keep := disallowed_name_keep; reword := Some disallowed_name_reword |}
      else if String.eqb c "R6607" then
        Some {| used_options := [SET_GROUPS];
                pattern := [[Lit "Use "; Star (not_char " "); Lit " instead of repeated "; Star (not_char " ");
                             Lit " in "; CapStar (not_char "."); One any_char]];
                keep := no_repeated_op_keep; reword := None |}
      else if String.eqb c "C0325" then
        Some {| used_options := [];
                pattern := [[Lit "Unnecessary parens after "; CapStar any_char; Lit " keyword"]];
                keep := superfluous_parens_keep; reword := None |}
      else if String.eqb c "W0622" then
        Some {| used_options := [DISALLOWED_BUILTIN_NAMES];
                pattern := [[Lit "Redefining built-in "; CapStar any_char]];
                keep := redefined_builtin_keep; reword := None |}
      else None
  | FLAKE8_L =>
      if String.eqb c "F401" then
        Some {| used_options := [];
                pattern := [[Lit "'"; CapStar any_char; Lit "' imported but unused"]];
                keep := unused_import_keep; reword := None |}
      else if String.eqb c "E712" then
        Some {| used_options := [];
                pattern := map (fun b => [CapLit ("comparison to " ++ b ++ " should be "); Lit "'if cond is ";
                                          Star any_char; Lit "' or "; CapStar any_char]) ["True"; "False"];
                keep := always_keep; reword := Some singleton_bool_comparison_reword |}
      else None
  | EDULINT_L => None
  end%string.

(** edulint/linting/tweakers.py:29-30, [Tweaker.get_reword]. *)
Definition get_reword (t : tweaker) (p : problem) : res string :=
  match reword t with Some f => f (tw_match (pattern t)) p | None => Ok (text p) end.

(** edulint/linting/linting.py:238-252, [apply_tweaks]. *)
Fixpoint apply_tweaks (problems : list problem) (tweakers : Linter -> string -> option tweaker) (c : iconfig)
  : res (list problem) :=
  match problems with
  | [] => Ok []
  | p :: r =>
      do here <- match tweakers (source p) (code p) with
                 | None => Ok [p]
                 | Some t =>
                     do k <- keep t (tw_match (pattern t)) p
                               (filter (fun a => existsb (opt_eqb (fst a)) (used_options t)) (ivals c));
                     if k then do w <- get_reword t p; Ok [with_text p w] else Ok []
                 end;
      do rest <- apply_tweaks r tweakers c;
      Ok (here ++ rest)
  end.

(** ** Sorting *)

(** [sub in s] for strings, edulint/linting/linting.py:49. *)
Fixpoint contains (sub s : string) : bool :=
  String.prefix sub s || match s with EmptyString => false | String _ r => contains sub r end.

(** edulint/linting/linting.py:48-49, [is_pylint_out_of_file_problem]. *)
Definition is_pylint_out_of_file_problem (p : string) : bool :=
  contains "command line" (lower p) || contains "configuration file" (lower p).

(** [pathlib.PurePosixPath(p)]: the root ('', '/' or '//') and the parts; '..' is kept,
    edulint/linting/linting.py:72, 267. *)
Definition path_root (p : string) : nat := initial_slashes p.
(** [fd in path.parents], edulint/linting/linting.py:269. *)
Fixpoint is_prefix (a b : list string) : bool :=
  match a, b with
  | [], _ => true
  | x :: a', y :: b' => String.eqb x y && is_prefix a' b'
  | _ :: _, [] => false
  end.
(** [fd == path or fd in path.parents], edulint/linting/linting.py:269. *)
Definition path_under (fd p : string) : bool :=
  Nat.eqb (path_root fd) (path_root p) && is_prefix (path_parts fd) (path_parts p).

(** edulint/linting/linting.py:263-271, [get_file_or_dir_index]; [i] is the index of the first element. *)
Fixpoint index_from (i : Z) (fds : list string) (p : string) : res Z :=
  match fds with
  | [] => Raise AssertionError
  | fd :: r => if path_under fd p then Ok i else index_from (i + 1)%Z r p
  end.
(** [get_file_or_dir_index], edulint/linting/linting.py:263-271. *)
Definition get_file_or_dir_index (fds : list string) (p : string) : res Z :=
  if is_pylint_out_of_file_problem p then Ok (-1)%Z else index_from 0%Z fds p.

(** Comparison of Python strings, by code points, edulint/linting/linting.py:273-280. *)
Fixpoint str_leb (a b : string) : bool :=
  match a, b with
  | EmptyString, _ => true
  | String _ _, EmptyString => false
  | String x a', String y b' =>
      if Ascii.eqb x y then str_leb a' b' else Nat.ltb (nat_of_ascii x) (nat_of_ascii y)
  end.

(** The sort key of edulint/linting/linting.py:274-279 and the comparison of key tuples. *)
Notation key := (Z * string * Z * Z)%type.
(** The order of the keys, edulint/linting/linting.py:273-280. *)
Definition key_leb (a b : key) : bool :=
  let '(i, p, l, c) := a in
  let '(j, q, m, d) := b in
  if Z.eqb i j then
    if String.eqb p q then
      if Z.eqb l m then Z.leb c d else Z.ltb l m
    else str_leb p q
  else Z.ltb i j.

(** [list.sort] (stable), edulint/linting/linting.py:273-280: insertion from the right. *)
Fixpoint insert (x : key * problem) (l : list (key * problem)) : list (key * problem) :=
  match l with
  | [] => [x]
  | y :: r => if key_leb (fst x) (fst y) then x :: l else y :: insert x r
  end.
(** [problems.sort], edulint/linting/linting.py:273-280. *)
Definition stable_sort (l : list (key * problem)) : list (key * problem) := fold_right insert [] l.

(** edulint/linting/linting.py:260-281, [sort]. *)
Definition sort (fds : list string) (problems : list problem) : res (list problem) :=
  do keyed <- mapM (fun p => do i <- get_file_or_dir_index fds (path p);
                             Ok ((i, path p, line p, column p), p)) problems;
  Ok (map snd (stable_sort keyed)).

(** ** Running the linters *)

(** One flake8 (resp. pylint) message after [json.loads], with the fields read at
    edulint/linting/linting.py:28-45 and 52-104. *)
Record flake8_raw := { f_filename : string; f_line : Z; f_column : Z; f_code : string; f_text : string }.
(** A message of pylint, edulint/linting/linting.py:52-66. *)
Record pylint_raw := {
  r_path : string; r_line : Z; r_column : Z; r_id : string; r_message : string;
  r_end_line : option Z; r_end_column : option Z; r_symbol : string }.

(** The code of [SystemExit]: absent, an integer, or another object, edulint/linting/linting.py:177-178, 210-211. *)
Inductive exit_code := NoCode | Code (n : Z) | OtherCode.

(** How a call into a linter ends: [Done] is a normal return, [Exited] a [SystemExit], [Crashed] any
    other exception. The strings are what it wrote to its output and error streams,
    edulint/linting/linting.py:174-178, 207-211. *)
Inductive run := Done (out err : string) | Exited (c : exit_code) (out err : string) | Crashed (e : exn).

(** [sys.stdout] and [sys.stderr]: the caller's streams or [StringIO] buffers,
    edulint/linting/linting.py:166-172, 203-205. *)
Inductive stream := Given (n : nat) | Buffer.
(** The two standard streams, edulint/linting/linting.py:166-172, 203-205. *)
Record streams := { out_stream : stream; err_stream : stream }.

(** Code that uses the standard streams and may raise, edulint/linting/linting.py:163-218. *)
Definition io (A : Type) := streams -> streams * res A.
(** Code that does not use the streams, edulint/linting/linting.py:163-218. *)
Definition ret {A} (r : res A) : io A := fun s => (s, r).
(** One piece of code after another, edulint/linting/linting.py:163-218. *)
Definition then_ {A B} (m : io A) (k : A -> io B) : io B :=
  fun s => match m s with
           | (s', Ok a) => k a s'
           | (s', Raise e) => (s', Raise e)
           end.
(** Notation for sequences, edulint/linting/linting.py:163-218. *)
Notation "'go' x <- m ; k" := (then_ m (fun x => k)) (at level 200, x pattern, m at level 100, k at level 200).

Section Linters.
  Variable cwd : string.
  (** flake8 and pylint on an argument list; [json.loads] (linting.py:142), the selection of the
      messages (linting.py:183, 215) and the type assertions (linting.py:29-35, 55-66) on their
      outputs, which may raise any exception. *)
  Variable flake8 : list string -> run.
  Variable pylint : list string -> run.
  Variable flake8_json : string -> res (list flake8_raw).
  Variable pylint_json : string -> res (list pylint_raw).
  (** edulint's own line-based check on files and configuration (modelled in MagicModel). *)
  Variable lint_edulint : list string -> iconfig -> res (list problem).

  (** edulint/linting/linting.py:28-45, [flake8_to_problem]. *)
  Definition flake8_to_problem (enablers : dict string) (raw : flake8_raw) : problem :=
    {| source := FLAKE8_L; enabled_by := dget (f_code raw) enablers;
       path := get_proper_path cwd (f_filename raw); line := f_line raw; column := f_column raw;
       code := f_code raw; text := f_text raw; end_line := None; end_column := None; symbol := None |}.

  (** [Path(p).resolve()] without symbolic links: the parts of the absolute path after the root,
      outermost first, in working directory [cwd], edulint/linting/linting.py:68-88. *)
  Definition resolve (p : string) : list string := rel_comps (abspath cwd p).

  (** edulint/linting/linting.py:83-85: the loop variable [i] after the loop over the indices of the
      shorter of two part lists (whose first parts, the roots, are equal). *)
  Fixpoint last_index (a b : list string) (i : nat) : nat :=
    match a, b with
    | x :: a', y :: b' =>
        if String.eqb x y
        then match a', b' with _ :: _, _ :: _ => last_index a' b' (S i) | _, _ => i end
        else i
    | _, _ => i
    end.
  (** [Path] of several parts, linting.py:87: an absolute part discards what precedes it. *)
  Definition path_of (parts : list string) : string := fold_left pjoin parts "".

  (** edulint/linting/linting.py:68-88, [get_used_filename]. *)
  Fixpoint used_filename (fds : list string) (p : string) : res string :=
    match fds with
    | [] => Raise AssertionError
    | fd :: r =>
        let abs_path := resolve p in
        if is_prefix (resolve fd) abs_path then
          if isabs fd then Ok (String "/" (join "/" abs_path))
          else
            let cwd_parts := "/" :: resolve "." in
            let abs_parts := "/" :: abs_path in
            let i := last_index cwd_parts abs_parts 0 in
            Ok (path_of (repeat ".." (List.length cwd_parts - i) ++ skipn i abs_parts))
        else used_filename r p
    end.
  (** [get_used_filename], edulint/linting/linting.py:71-88. *)
  Definition get_used_filename (fds : list string) (p : string) : res string :=
    if is_pylint_out_of_file_problem p then Ok p else used_filename fds p.

  (** edulint/linting/linting.py:52-104, [pylint_to_problem]. *)
  Definition pylint_to_problem (fds : list string) (enablers : dict string) (raw : pylint_raw) : res problem :=
    do used <- get_used_filename fds (r_path raw);
    Ok {| source := PYLINT_L;
          enabled_by := match dget (r_id raw) enablers with
                        | Some e => Some e
                        | None => dget (r_symbol raw) enablers
                        end;
          path := get_proper_path cwd used; line := r_line raw; column := r_column raw;
          code := r_id raw; text := r_message raw; end_line := r_end_line raw;
          end_column := r_end_column raw; symbol := Some (r_symbol raw) |}.

  (** The exception types of edulint/edulint.py:174; [linter_failed] is
      [EduLintLinterFailedException], linting.py:20. *)
  Definition linter_failed : exn := OtherError "EduLintLinterFailedException".
  (** [json.decoder.JSONDecodeError], edulint/linting/linting.py:141-146. *)
  Definition json_error : exn := OtherError "JSONDecodeError".

  (** edulint/linting/linting.py:133-136: which exit codes are failures. *)
  Definition failure_code (l : Linter) (c : exit_code) : bool :=
    match l, c with
    | FLAKE8_L, Code n => negb (Z.eqb n 0 || Z.eqb n 1)
    | FLAKE8_L, _ => true
    | PYLINT_L, Code n => Z.eqb n 32
    | _, _ => false
    end.

  (** edulint/linting/linting.py:120-148, [process_results]; logging is not modelled. *)
  Definition process_results {A} (l : Linter) (c : exit_code) (outs : string)
      (parse : string -> res (list A)) (to_problem : A -> res problem) : res (list problem) :=
    if failure_code l c then Raise linter_failed
    else if String.eqb outs "" then Ok []
    else do raws <- parse outs; mapM to_problem raws.

  (** A value that must be a list of texts, edulint/linting/linting.py:175, 197. *)
  Definition strings (v : val) : res (list string) :=
    match v with VList l => Ok l | _ => Raise TypeError end.

  (** edulint/linting/linting.py:158-186, [lint_flake8]. The streams are put back only after the
      [try] statement, which handles [SystemExit] alone. *)
  Definition lint_flake8 (fds : list string) (c : iconfig) : io (list problem) :=
    fun s =>
      match (do v <- iget c FLAKE8; strings v) with
      | Raise e => ({| out_stream := Buffer; err_stream := Buffer |}, Raise e)
      | Ok args =>
          match flake8 (["--format=json"] ++ args ++ fds) with
          | Crashed e => ({| out_stream := Buffer; err_stream := Buffer |}, Raise e)
          | Done out err =>
              (s, process_results FLAKE8_L (Code 0) out flake8_json (fun r => Ok (flake8_to_problem (ienablers c) r)))
          | Exited k out err =>
              (s, process_results FLAKE8_L k out flake8_json (fun r => Ok (flake8_to_problem (ienablers c) r)))
          end
      end.

  (** edulint/linting/linting.py:189-218, [lint_pylint]; only the error stream is replaced. *)
  Definition lint_pylint (fds : list string) (c : iconfig) : io (list problem) :=
    fun s =>
      match (do v <- iget c PYLINT; strings v) with
      | Raise e => (s, Raise e)
      | Ok args =>
          match pylint (["--recursive=y"] ++ args ++ fds) with
          | Crashed e => ({| out_stream := out_stream s; err_stream := Buffer |}, Raise e)
          | Done out err =>
              (s, process_results PYLINT_L (Code 0) out pylint_json (pylint_to_problem fds (ienablers c)))
          | Exited k out err =>
              (s, process_results PYLINT_L k out pylint_json (pylint_to_problem fds (ienablers c)))
          end
      end.

  (** The truth of a value, edulint/linting/linting.py:289. *)
  Definition truth (v : val) : bool :=
    match v with
    | VBool b => b
    | VList l => match l with [] => false | _ => true end
    | VOptStr (Some s) => negb (String.eqb s "")
    | VOptStr None => false
    end.

  (** edulint/linting/linting.py:284-294, [lint]. *)
  Definition lint (fds : list string) (c : iconfig) : io (list problem) :=
    go e <- ret (lint_edulint fds c);
    go no <- ret (iget c NO_FLAKE8);
    go f <- (if truth no then ret (Ok []) else lint_flake8 fds c);
    go p <- lint_pylint fds c;
    ret (do t <- apply_tweaks (apply_overrides (e ++ f ++ p) OVERRIDERS) tweaker_of c;
         sort fds t).

  (** edulint/config/language_translations.py:87-104, [Translation.translate] (modelled in
      TranslateModel): code, text and template to the new text. *)
  Variable translate_text : translation -> string -> string -> res string.

  (** edulint/linting/linting.py:297-305, [translate]. *)
  Definition translate_problem (langs : lang_translations) (p : problem) : res problem :=
    match (match dget (code p) langs with
           | Some t => Some t
           | None => match symbol p with Some s => dget s langs | None => None end
           end) with
    | None => Ok p
    | Some t => do w <- translate_text t (code p) (text p); Ok (with_text p w)
    end.

  (** edulint/linting/linting.py:308-315, [lint_many]. *)
  Fixpoint lint_many (partition : list (list string * iconfig * lang_translations)) : io (list problem) :=
    match partition with
    | [] => ret (Ok [])
    | (fds, c, langs) :: r =>
        go ps <- lint fds c;
        go here <- ret (mapM (translate_problem langs) ps);
        go rest <- lint_many r;
        ret (Ok (here ++ rest))
    end.

  (** Whether a path exists and whether it is a directory. *)
  Variable exists_ : string -> bool.
  Variable is_dir : string -> bool.
  (** [get_config_many] on the given paths (ConfigFileModel), edulint/edulint.py:169-170. *)
  Variable configs : list string -> res (list (list string * iconfig * lang_translations)).

  (** The exceptions handled by edulint/edulint.py:174. *)
  Definition handled (e : exn) : bool :=
    match e with
    | OtherError w => String.eqb w "EduLintLinterFailedException" || String.eqb w "JSONDecodeError"
                      || String.eqb w "TimeoutError"
    | _ => false
    end.

  (** edulint/edulint.py:158-178, [_check_code]; the inner [None] is the Python value. *)
  Definition check_code (fds : list string) : io (option (list problem)) :=
    if negb (forallb exists_ fds) then ret (Ok None)
    else
      go cs <- ret (configs fds);
      fun s =>
        match lint_many cs s with
        | (s', Raise e) => if handled e then (s', Ok None) else (s', Raise e)
        | (s', Ok ps) => (s', do l <- sort fds ps; Ok (Some l))
        end.

  (** A line of the textual report, edulint/edulint.py:181-230. *)
  Inductive report_line := Header (name : string) | Entry (p : problem).

  (** edulint/edulint.py:192-200; [prev] is the path of [prev_problem]. *)
  Fixpoint report (single : bool) (prev : option string) (ps : list problem) : list report_line :=
    match ps with
    | [] => []
    | p :: r =>
        if negb single && match prev with None => true | Some q => negb (String.eqb q (path p)) end
        then Header (basename (path p)) :: Entry p :: report single (Some (path p)) r
        else Entry p :: report single prev r
    end.

  (** edulint/edulint.py:181-202, [check_and_print] without '--json': the lines and the status. *)
  Definition check_and_print (fds : list string) : io (list report_line * Z) :=
    go r <- check_code fds;
    match r with
    | None => ret (Ok ([], 2%Z))
    | Some ps =>
        let single := match fds with [fd] => negb (is_dir fd) | _ => false end in
        ret (Ok (report single None ps, match ps with [] => 0%Z | _ => 1%Z end))
    end.

  (** edulint/edulint.py:289-307 and __main__.py:4, for the command 'check': [logger.catch] turns an
      exception into the result [None], for which the interpreter exits with 0. *)
  Definition exit_status (fds : list string) (s : streams) : Z :=
    match check_and_print fds s with
    | (_, Ok (_, n)) => n
    | (_, Raise _) => 0%Z
    end.
End Linters.
