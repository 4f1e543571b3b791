(** Model of the translation of messages, edulint/config/language_translations.py. Definitions only. *)
From Coq Require Import String Ascii List Bool Arith Decimal DecimalString.
From Verif Require Import Base ConfigModel ConfigFileModel RegexModel LintModel.
Import ListNotations.
Local Open Scope string_scope.
Local Open Scope list_scope.

(** A letter of the class [[rsd]], ignoring case, edulint/config/language_translations.py:20. *)
Definition hole_letter (c : ascii) : bool :=
  existsb (Ascii.eqb (lower_ascii c)) ["r"%char; "s"%char; "d"%char].

(** edulint/config/language_translations.py:19-20, [to_pattern]: [re.escape] leaves '%' and letters
    alone, so the holes can be found in the message itself; literals are split into characters. *)
Fixpoint to_pattern (message : string) : list item :=
  match message with
  | EmptyString => []
  | String "%" ((String c r) as t) =>
      if hole_letter c then CapStar any_char :: to_pattern r else Lit "%" :: to_pattern t
  | String c r => Lit (String c "") :: to_pattern r
  end.

(** Whether the pattern has a group, edulint/config/language_translations.py:98; literal parentheses
    are escaped. *)
Definition has_hole (p : list item) : bool :=
  existsb (fun i => match i with CapStar _ => true | _ => false end) p.

(** [str(n)], used in edulint/config/language_translations.py:80. *)
Definition dec (n : nat) : string := NilEmpty.string_of_uint (Nat.to_uint n).

Section Translate.
  (** The messages of the checkers, edulint/config/language_translations.py:31-52; and the text
      [format] makes of a TOML value that is not a string. *)
  Variable messages : string -> option string.
  Variable show : toml -> string.

  (** edulint/config/language_translations.py:68-85, [translate_extracts]; [i] counts from 0. *)
  Fixpoint translate_extracts (ex : toml) (i : nat) (words : list string) : res (list string) :=
    match words with
    | [] => Ok []
    | word :: r =>
        do here <- match ex with
                   | TTable d =>
                       match dget (dec (i + 1)) d with
                       | None => Ok word
                       | Some (TTable m) =>
                           Ok (match dget word m with Some (TStr s) => s | Some v => show v | None => word end)
                       | Some _ => Raise AttributeError
                       end
                   | _ => Raise AttributeError
                   end;
        do rest <- translate_extracts ex (i + 1) r;
        Ok (here :: rest)
    end.

  (** [str.format], called in edulint/config/language_translations.py:104: the template as characters and replacement fields. Fields with a nested brace or
      a bracket are refused, and so are conversions and format specifications below; Python accepts
      some of them. *)
  Inductive piece := Char (c : ascii) | Field (name : string).
  (** The parts of a template of [str.format], edulint/config/language_translations.py:104. *)
  Fixpoint pieces (inside : option string) (t : string) : res (list piece) :=
    match inside, t with
    | None, EmptyString => Ok []
    | None, String "{" (String "{" r) => do l <- pieces None r; Ok (Char "{" :: l)
    | None, String "{" r => pieces (Some "") r
    | None, String "}" (String "}" r) => do l <- pieces None r; Ok (Char "}" :: l)
    | None, String "}" _ => Raise ValueError
    | None, String c r => do l <- pieces None r; Ok (Char c :: l)
    | Some _, EmptyString => Raise ValueError
    | Some name, String "}" r => do l <- pieces None r; Ok (Field name :: l)
    | Some _, String "{" _ => Raise ValueError
    | Some _, String "[" _ => Raise ValueError
    | Some name, String c r => pieces (Some (name ++ String c "")%string) r
    end.

  (** [str.format], edulint/config/language_translations.py:104. Numbering of fields: not decided yet, automatic (with the next index) or manual. *)
  Inductive numbering := Undecided | Automatic (next : nat) | Manual.
  (** A field name that is a number, edulint/config/language_translations.py:104. *)
  Definition digit (c : ascii) : option nat :=
    let n := nat_of_ascii c in if Nat.leb 48 n && Nat.leb n 57 then Some (n - 48) else None.
  (** The number in a placeholder, edulint/config/language_translations.py:104. *)
  Fixpoint number (s : string) (acc : nat) : option nat :=
    match s with
    | EmptyString => Some acc
    | String c r => match digit c with Some d => number r (10 * acc + d) | None => None end
    end.
  (** The [n]-th argument of [format], edulint/config/language_translations.py:104. *)
  Definition argument (args : list string) (n : nat) : res string :=
    match nth_error args n with Some s => Ok s | None => Raise IndexError end.
  (** Filling in the fields, edulint/config/language_translations.py:104. *)
  Fixpoint fill (ps : list piece) (args : list string) (m : numbering) : res string :=
    match ps with
    | [] => Ok ""
    | Char c :: r => do s <- fill r args m; Ok (String c s)
    | Field "" :: r =>
        match m with
        | Manual => Raise ValueError
        | _ => let n := match m with Automatic n => n | _ => 0 end in
               do a <- argument args n;
               do s <- fill r args (Automatic (S n)); Ok (a ++ s)%string
        end
    | Field name :: r =>
        match number name 0 with
        | None => Raise KeyError
        | Some n =>
            match m with
            | Automatic _ => Raise ValueError
            | _ => do a <- argument args n;
                   do s <- fill r args Manual; Ok (a ++ s)%string
            end
        end
    end.
  (** edulint/config/language_translations.py:104, [self.translation.format]. *)
  Definition format (t : string) (args : list string) : res string :=
    do ps <- pieces None t; fill ps args Undecided.

  (** edulint/config/language_translations.py:87-104, [Translation.translate]. *)
  Definition translate (t : translation) (code message : string) : res string :=
    match messages code with
    | None => Ok (template t)
    | Some m =>
        if negb (has_hole (to_pattern m)) then Ok (template t)
        else
          match rmatch true (to_pattern m) message with
          | None => Ok (template t)
          | Some (groups, _) =>
              do words <- translate_extracts (extracts t) 0 groups;
              format (template t) words
          end
    end.
End Translate.

(** edulint/config/raw_flake8_patterns.py:1-117, [FLAKE8]. *)
Definition FLAKE8_MESSAGES : dict string :=
  [("F401", "%r imported but unused");
   ("F402", "import %r from line %r shadowed by loop variable");
   ("F403", "'from %s import *' used; unable to detect undefined names");
   ("F404", "future import(s) name after other statements");
   ("F405", "%r may be undefined, or defined from star imports: %s");
   ("F406", "'from %s import *' only allowed at module level");
   ("F407", "an undefined __future__ feature name was imported");
   ("F501", "'...' %% ... has invalid format string: %s");
   ("F502", "'...' %% ... expected mapping but got sequence");
   ("F503", "'...' %% ... expected sequence but got mapping");
   ("F504", "'...' %% ... has unused named argument(s): %s");
   ("F505", "'...' %% ... is missing argument(s) for placeholder(s): %s");
   ("F506", "'...' %% ... has mixed positional and named placeholders");
   ("F507", "'...' %% ... has %d placeholder(s) but %d substitution(s)");
   ("F508", "'...' %% ... `*` specifier requires sequence");
   ("F509", "'...' %% ... has unsupported format character %r");
   ("F521", "'...'.format(...) has invalid format string: %s");
   ("F522", "'...'.format(...) has unused named argument(s): %s");
   ("F523", "'...'.format(...) has unused arguments at position(s): %s");
   ("F524", "'...'.format(...) is missing argument(s) for placeholder(s): %s");
   ("F525", "'...'.format(...) mixes automatic and manual numbering");
   ("F541", "f-string is missing placeholders");
   ("F601", "dictionary key %r repeated with different values");
   ("F602", "dictionary key variable %s repeated with different values");
   ("F621", "too many expressions in an assignment with star-unpacking");
   ("F622", "two or more starred expressions in an assignment (a, *b, *c = d)");
   ("F631", "assertion test is a tuple, which is always True");
   ("F632", "use ==/!= to compare constant literals (str, bytes, int, float, tuple)");
   ("F633", "use of >> is invalid with print function");
   ("F634", "if test is a tuple, which is always True");
   ("F701", "a break statement outside of a while or for loop");
   ("F702", "a continue statement outside of a while or for loop");
   ("F704", "a yield or yield from statement outside of a function");
   ("F706", "a return statement outside of a function/method");
   ("F707", "an except: block as not the last exception handler");
   ("F721", "syntax error in doctest");
   ("F722", "syntax error in forward annotation %r");
   ("F723", "syntax error in type comment");
   ("F811", "redefinition of unused %r from line %r");
   ("F821", "undefined name %r");
   ("F822", "undefined name %r in __all__");
   ("F823", "local variable %r %s referenced before assignment");
   ("F831", "duplicate argument %r in function definition");
   ("F841", "local variable %r is assigned to but never used");
   ("F901", "'raise NotImplemented' should be 'raise NotImplementedError'");
   ("E101", "indentation contains mixed spaces and tabs");
   ("E111", "indentation is not a multiple of %d");
   ("E112", "expected an indented block");
   ("W191", "indentation contains tabs");
   ("W291", "trailing whitespace");
   ("W293", "blank line contains whitespace");
   ("W391", "blank line at end of file");
   ("W292", "no newline at end of file");
   ("E501", "line too long (%d > %d characters)");
   ("E304", "blank lines found after function decorator");
   ("E303", "too many blank lines (%d)");
   ("E306", "expected %s blank line before a nested definition, found 0");
   ("E301", "expected %s blank line, found 0");
   ("E302", "expected %s blank lines, found %d");
   ("E305", "expected %s blank lines after class or function definition, found %d");
   ("E201", "whitespace after '%s'");
   ("E274", "tab before keyword");
   ("E272", "multiple spaces before keyword");
   ("E273", "tab after keyword");
   ("E271", "multiple spaces after keyword");
   ("E275", "missing whitespace after keyword");
   ("E124", "closing bracket does not match visual indentation");
   ("E133", "closing bracket is missing indentation");
   ("E128", "continuation line under-indented for visual indent");
   ("E123", "closing bracket does not match indentation of opening bracket's line");
   ("E122", "missing indentation or outdented");
   ("E127", "over-indented for visual indent");
   ("E131", "unaligned for hanging indent");
   ("E126", "over-indented for hanging indent");
   ("E121", "under-indented for hanging indent");
   ("E129", "visually indented line");
   ("E125", "continuation line");
   ("E211", "whitespace before '%s'");
   ("E223", "tab before operator");
   ("E221", "multiple spaces before operator");
   ("E224", "tab after operator");
   ("E222", "multiple spaces after operator");
   ("E225", "missing whitespace around operator");
   ("E242", "tab after '%s'");
   ("E241", "multiple spaces after '%s'");
   ("E251", "unexpected spaces around keyword / parameter equals");
   ("E252", "missing whitespace around parameter equals");
   ("E261", "at least two spaces before inline comment");
   ("E262", "inline comment should start with '# '");
   ("E265", "block comment should start with '# '");
   ("E266", "too many leading '#' for block comment");
   ("E401", "multiple imports on one line");
   ("E402", "module level import not at top of file");
   ("E731", "do not assign a lambda expression, use a def");
   ("E704", "multiple statements on one line (def)");
   ("E701", "multiple statements on one line (colon)");
   ("E702", "multiple statements on one line (semicolon)");
   ("E703", "statement ends with a semicolon");
   ("E502", "the backslash is redundant between brackets");
   ("W503", "line break before binary operator");
   ("W504", "line break after binary operator");
   ("E712", "comparison to %s should be 'if%s cond:'");
   ("E713", "test for membership should be 'not in'");
   ("E714", "test for object identity should be 'is not'");
   ("E721", "do not compare types, for exact checks use `is` / `is not`, for instance checks use `isinstance()`");
   ("E722", "do not use bare 'except'");
   ("E742", "ambiguous class definition '%s'");
   ("E743", "ambiguous function definition '%s'");
   ("E741", "ambiguous variable name '%s'");
   ("W605", "invalid escape sequence '\%s'");
   ("W505", "doc line too long (%d > %d characters)")].
